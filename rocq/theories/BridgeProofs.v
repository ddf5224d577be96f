(** Proofs for find_bridges (C85): the depth-first search on vertex numbers. *)
From Coq Require Import Sorting.Sorted.
From Verif Require Import Base SccModel.
Import List.

Section B.
  Context (n_adj : list (list Z)).
  Notation n := (len n_adj).
  Definition rng (x : Z) : Prop := 0 <= x < n.
  Definition adj (u v : Z) : Prop := rng u /\ In v (zn [] n_adj u).
  Context (Asym : forall u v, adj u v -> adj v u).

  Inductive lw (a b x : Z) : Z -> Prop :=
  | lw_here : lw a b x x
  | lw_step y z : lw a b x y -> adj y z -> ~ (y = a /\ z = b) -> ~ (y = b /\ z = a) -> lw a b x z.
  Definition bridgeZ (a b : Z) : Prop := adj a b /\ ~ lw a b a b.
  Lemma lw_trans a b x y z : lw a b x y -> lw a b y z -> lw a b x z.
  Proof. intros H K. induction K; [exact H|]. econstructor; eauto. Qed.
  Lemma lw_sym a b x y : lw a b x y -> lw a b y x.
  Proof. intros H. induction H as [|y z H IH E N1 N2]; [constructor|]. apply (lw_trans a b z y x); [|exact IH]. apply (lw_step a b z z y); [constructor|apply Asym; exact E|tauto|tauto]. Qed.
  Lemma lw_swap a b x y : lw a b x y -> lw b a x y.
  Proof. intros H. induction H; [constructor|]. econstructor; eauto; tauto. Qed.
  Lemma lw_one a b x y : adj x y -> ~ (x = a /\ y = b) -> ~ (x = b /\ y = a) -> lw a b x y.
  Proof. intros. apply (lw_step a b x x y); auto. constructor. Qed.
  Lemma lw_cross a b x y (P : Z -> Prop) : (forall z, {P z} + {~ P z}) -> lw a b x y -> ~ P x -> P y -> exists c d, ~ P c /\ P d /\ adj c d /\ ~ (c = a /\ d = b) /\ ~ (c = b /\ d = a).
  Proof.
    intros D H Nx Py. induction H as [|y z H IH E N1 N2]; [contradiction|]. destruct (D y) as [Y|Y]; [auto|]. exists y, z. auto.
  Qed.

  Notation vis st x := (zn false (r_vis st) x). Notation disc st x := (zn 0 (r_disc st) x). Notation low st x := (zn 0 (r_low st) x). Notation par st x := (zn (-1) (r_par st) x).

  (** connected by tree edges *)
  Inductive tconn (st : br) (x : Z) : Z -> Prop :=
  | tc_here : tconn st x x
  | tc_up y : tconn st x y -> rng y -> vis st y = true -> par st y <> -1 -> tconn st x (par st y)
  | tc_down z : tconn st x (par st z) -> rng z -> vis st z = true -> par st z <> -1 -> tconn st x z.
  Lemma tconn_trans st x y z : tconn st x y -> tconn st y z -> tconn st x z.
  Proof. intros H K. induction K; [exact H|apply tc_up; auto|apply tc_down; auto]. Qed.
  Lemma tconn_sym st x y : tconn st x y -> tconn st y x.
  Proof.
    intros H. induction H as [|y H IH R V N|z H IH R V N]; [constructor| |].
    - apply (tconn_trans st _ y); [|exact IH]. apply tc_down; auto. constructor.
    - apply (tconn_trans st _ (par st z)); [|exact IH]. apply tc_up; auto. constructor.
  Qed.
  Lemma tconn_mono st st' x y : (forall z, rng z -> vis st z = true -> vis st' z = true /\ par st' z = par st z) -> tconn st x y -> tconn st' x y.
  Proof.
    intros H K. induction K as [|y K IH R V N|z K IH R V N]; [constructor| |]; destruct (H _ R V) as [A B].
    - rewrite <- B. apply tc_up; auto. congruence.
    - apply tc_down; auto; [|congruence]. rewrite B. exact IH.
  Qed.

  Record wf (st : br) : Prop := { w_vis : len (r_vis st) = n; w_disc : len (r_disc st) = n; w_low : len (r_low st) = n; w_par : len (r_par st) = n }.
  Definition top (P : list Z) : Z := match P with [] => -1 | p :: _ => p end.
  (** [exc]: the vertex whose parent is set and which is about to be visited (or -1) *)
  Record inv (st : br) (P : list Z) (exc : Z) : Prop := {
    i_wf : wf st;
    i_time : 0 <= r_time st;
    i_disc : forall x, rng x -> vis st x = true -> 0 <= disc st x < r_time st;
    i_inj : forall x y, rng x -> rng y -> vis st x = true -> vis st y = true -> disc st x = disc st y -> x = y;
    i_gray : forall p, In p P -> rng p /\ vis st p = true;
    i_sort : StronglySorted (fun a b => disc st b < disc st a) P;
    i_chain : forall y z a b, In y P -> In z P -> ~ (In a P /\ In b P) -> lw a b y z;
    i_gt : forall y z, In y P -> In z P -> tconn st y z;
    i_black : forall x y, rng x -> vis st x = true -> ~ In x P -> adj x y -> vis st y = true;
    i_par : forall x, rng x -> vis st x = true -> par st x = -1 \/ (rng (par st x) /\ vis st (par st x) = true /\ adj (par st x) x /\ disc st (par st x) < disc st x);
    i_unpar : forall x, rng x -> x <> exc -> vis st x = false -> par st x = -1;
    i_tree : forall x y, rng x -> rng y -> vis st x = true -> vis st y = true -> adj x y -> tconn st x y }.

  Definition isnew (st st' : br) (x : Z) : Prop := rng x /\ vis st x = false /\ vis st' x = true.
  (** after dfs(u); [P] are the active calls *)
  Record post (st : br) (P : list Z) (u : Z) (st' : br) : Prop := {
    p_old : forall x, rng x -> vis st x = true -> vis st' x = true /\ disc st' x = disc st x /\ low st' x = low st x /\ par st' x = par st x;
    p_time : r_time st <= r_time st';
    p_u : vis st' u = true;
    p_pu : par st' u = par st u;
    p_disc : forall x, isnew st st' x -> r_time st <= disc st' x;
    p_in : forall x a b, isnew st st' x -> ~ isnew st st' a -> lw a b u x;
    p_le : low st' u <= disc st' u;
    p_l1 : forall x y, isnew st st' x -> In y P -> adj x y -> ~ (x = u /\ y = par st u) -> low st' u <= disc st y;
    p_l2 : low st' u < disc st' u -> exists x y, isnew st st' x /\ In y P /\ adj x y /\ ~ (x = u /\ y = par st u) /\ disc st y = low st' u;
    p_br : exists B, r_bridges st' = r_bridges st ++ B /\ NoDup (map snd B) /\ forall a b, In (a, b) B <-> isnew st st' b /\ b <> u /\ a = par st' b /\ bridgeZ a b }.

  Definition white st : nat := length (filter (fun x => negb (vis st x)) (zrange 0 n)).
  Lemma filter_le {A} (f h : A -> bool) l : (forall x, In x l -> f x = true -> h x = true) -> (length (filter f l) <= length (filter h l))%nat.
  Proof.
    induction l as [|a l IH]; intros H; cbn; [lia|]. assert (X := IH (fun x Hx => H x (or_intror Hx))). specialize (H a (or_introl eq_refl)).
    destruct (f a); [rewrite H by reflexivity; cbn; lia|]. destruct (h a); cbn; lia.
  Qed.
  Lemma filter_lt {A} (f h : A -> bool) l a : (forall x, In x l -> f x = true -> h x = true) -> In a l -> f a = false -> h a = true -> (length (filter f l) < length (filter h l))%nat.
  Proof.
    induction l as [|b l IH]; intros H Ha Fa Ka; [destruct Ha|]. cbn. destruct Ha as [->|Ha].
    - rewrite Fa, Ka. cbn. assert (X := filter_le f h l (fun x Hx => H x (or_intror Hx))). lia.
    - specialize (IH (fun x Hx => H x (or_intror Hx)) Ha Fa Ka). specialize (H b (or_introl eq_refl)). destruct (f b); [rewrite H by reflexivity; cbn; lia|]. destruct (h b); cbn; lia.
  Qed.

  Lemma adj_rng u v : adj u v -> rng u /\ rng v.
  Proof. intros H. split; [apply H|apply (Asym u v H)]. Qed.
  Lemma new_dec st st' x : {isnew st st' x} + {~ isnew st st' x}.
  Proof.
    unfold isnew, rng. destruct (Z_le_dec 0 x) as [A|A]; [|right; intros (X & _); lia]. destruct (Z_lt_dec x n) as [B|B]; [|right; intros (X & _); lia].
    destruct (vis st x); [right; intros (_ & X & _); discriminate|]. destruct (vis st' x); [left; auto|right; intros (_ & _ & X); discriminate].
  Qed.

  (** ** entering *)
  Definition entered (st : br) (u : Z) : br :=
    mkbr (zupd (r_vis st) u true) (zupd (r_disc st) u (r_time st)) (zupd (r_low st) u (r_time st)) (r_par st) (r_bridges st) (r_time st + 1).
  Lemma vis_entered st u x : wf st -> rng u -> rng x -> vis (entered st u) x = if u =? x then true else vis st x.
  Proof. intros W U X. destruct W. unfold rng in *. cbn [entered r_vis]. apply zn_zupd; lia. Qed.
  Lemma disc_entered st u x : wf st -> rng u -> rng x -> disc (entered st u) x = if u =? x then r_time st else disc st x.
  Proof. intros W U X. destruct W. unfold rng in *. cbn [entered r_disc]. apply zn_zupd; lia. Qed.
  Lemma low_entered st u x : wf st -> rng u -> rng x -> low (entered st u) x = if u =? x then r_time st else low st x.
  Proof. intros W U X. destruct W. unfold rng in *. cbn [entered r_low]. apply zn_zupd; lia. Qed.

  Lemma inv_entered st P u : inv st P u -> rng u -> vis st u = false -> par st u = top P -> (P <> [] -> adj (top P) u) -> inv (entered st u) (u :: P) (-1).
  Proof.
    intros I U Vu Pu HA. assert (W := i_wf _ _ _ I). assert (T := i_time _ _ _ I).
    assert (VE : forall x, rng x -> vis (entered st u) x = if u =? x then true else vis st x) by (intros; apply vis_entered; auto).
    assert (DE : forall x, rng x -> disc (entered st u) x = if u =? x then r_time st else disc st x) by (intros; apply disc_entered; auto).
    assert (PE : forall x, par (entered st u) x = par st x) by reflexivity.
    assert (NP : forall p, In p P -> p <> u) by (intros p Hp ->; destruct (i_gray _ _ _ I u Hp); congruence).
    assert (TM : forall x y, tconn st x y -> tconn (entered st u) x y).
    { intros x y. apply tconn_mono. intros z Z1 Z2. rewrite VE by exact Z1. destruct (Z.eqb_spec u z); [split; reflexivity|split; [exact Z2|reflexivity]]. }
    assert (TP : P <> [] -> In (top P) P) by (destruct P; [congruence|left; reflexivity]).
    (* visited neighbours of u are gray *)
    assert (GN : forall y, rng y -> vis st y = true -> adj u y -> In y P).
    { intros y Ry Vy Ay. destruct (in_dec Z.eq_dec y P) as [X|X]; [exact X|]. assert (Q := i_black _ _ _ I y u Ry Vy X (Asym _ _ Ay)). congruence. }
    assert (TU : forall y, In y P -> tconn (entered st u) u y).
    { intros y Hy. assert (NE : P <> []) by (intros ->; destruct Hy). apply (tconn_trans _ _ (top P)).
      - rewrite <- Pu. change (par st u) with (par (entered st u) u). apply tc_up; [constructor|exact U|rewrite VE, Z.eqb_refl; auto|]. rewrite PE, Pu. destruct (i_gray _ _ _ I _ (TP NE)) as [R0 _]. unfold rng in R0. lia.
      - apply TM. apply (i_gt _ _ _ I); auto. }
    constructor.
    - destruct W. constructor; cbn [entered r_vis r_disc r_low r_par]; rewrite ?len_zupd; assumption.
    - cbn [entered r_time]. lia.
    - intros x Rx. rewrite VE, DE by exact Rx. cbn [entered r_time]. destruct (Z.eqb_spec u x); [lia|]. intros Vx. assert (Q := i_disc _ _ _ I x Rx Vx). lia.
    - intros x y Rx Ry. rewrite !VE, !DE by assumption. destruct (Z.eqb_spec u x), (Z.eqb_spec u y); intros A B C; try congruence.
      + assert (Q := i_disc _ _ _ I y Ry B). lia.
      + assert (Q := i_disc _ _ _ I x Rx A). lia.
      + apply (i_inj _ _ _ I x y); auto.
    - intros p [<-|Hp]; [split; [exact U|rewrite VE, Z.eqb_refl; auto]|]. destruct (i_gray _ _ _ I p Hp) as [A B]. split; [exact A|]. rewrite VE by exact A. destruct (u =? p); auto.
    - assert (S := i_sort _ _ _ I). assert (GR := i_gray _ _ _ I). constructor.
      + clear TU GN TP TM HA Pu I. induction S as [|a l S IH F]; [constructor|]. constructor; [apply IH; intros p Hp; [apply NP; right; exact Hp|apply GR; right; exact Hp]|].
        rewrite Forall_forall in *. intros b Hb. rewrite !DE by (apply GR; cbn; auto). destruct (Z.eqb_spec u b) as [->|]; [exfalso; apply (NP b); [right; exact Hb|reflexivity]|].
        destruct (Z.eqb_spec u a) as [->|]; [exfalso; apply (NP a); [left; reflexivity|reflexivity]|]. auto.
      + apply Forall_forall. intros b Hb. destruct (GR b Hb) as [A B]. rewrite !DE by assumption. rewrite Z.eqb_refl. destruct (Z.eqb_spec u b) as [->|]; [exfalso; apply (NP b Hb); reflexivity|]. apply (i_disc _ _ _ I b A B).
    - assert (X : forall z a b, In z P -> ~ (In a (u :: P) /\ In b (u :: P)) -> lw a b u z).
      { intros z a b Hz Hab. assert (NE : P <> []) by (intros ->; destruct Hz). apply (lw_trans a b u (top P) z).
        - apply lw_one; [apply Asym; apply HA; exact NE| |]; intros [X1 X2]; apply Hab; rewrite <- X1, <- X2; split; auto; try (left; reflexivity); right; apply TP; exact NE.
        - apply (i_chain _ _ _ I); auto. cbn [In] in Hab. tauto. }
      intros y z a b [<-|Hy] [<-|Hz] Hab.
      + constructor.
      + apply X; assumption.
      + apply lw_sym. apply X; assumption.
      + apply (i_chain _ _ _ I); auto. cbn [In] in Hab. tauto.
    - intros y z [<-|Hy] [<-|Hz]; [constructor|apply TU; exact Hz|apply tconn_sym; apply TU; exact Hy|apply TM; apply (i_gt _ _ _ I); assumption].
    - intros x y Rx Vx Nx Axy. destruct (adj_rng _ _ Axy) as [_ Ry]. rewrite VE in * by assumption. destruct (Z.eqb_spec u y); [reflexivity|]. destruct (Z.eqb_spec u x) as [->|]; [exfalso; apply Nx; left; reflexivity|].
      apply (i_black _ _ _ I x y Rx Vx); [|exact Axy]. intros X. apply Nx. right. exact X.
    - intros x Rx. rewrite VE, PE by exact Rx. destruct (Z.eqb_spec u x) as [<-|Hn].
      + intros _. rewrite Pu. destruct P as [|p P']; [left; reflexivity|]. right. cbn [top]. destruct (i_gray _ _ _ I p (or_introl eq_refl)) as [A B]. split; [exact A|]. rewrite VE, !DE by assumption. rewrite Z.eqb_refl.
        destruct (Z.eqb_spec u p) as [->|]; [exfalso; apply (NP p); [left; reflexivity|reflexivity]|]. split; [exact B|]. split; [apply HA; discriminate|]. apply (i_disc _ _ _ I p A B).
      + intros Vx. destruct (i_par _ _ _ I x Rx Vx) as [X|(A & B & C & D)]; [left; exact X|]. right. split; [exact A|]. rewrite VE, !DE by assumption. destruct (Z.eqb_spec u (par st x)) as [E|]; [congruence|]. destruct (Z.eqb_spec u x); [congruence|]. auto.
    - intros x Rx Nx. rewrite VE, PE by exact Rx. destruct (Z.eqb_spec u x) as [<-|Hn]; [discriminate|]. apply (i_unpar _ _ _ I x Rx). auto.
    - intros x y Rx Ry. rewrite !VE by assumption. destruct (Z.eqb_spec u x) as [<-|Hx], (Z.eqb_spec u y) as [<-|Hy]; intros A B C.
      + constructor.
      + apply TU. apply GN; assumption.
      + apply tconn_sym. apply TU. apply GN; auto.
      + apply TM. apply (i_tree _ _ _ I); assumption.
  Qed.

  (** changing only low, or only the list of bridges *)
  Lemma inv_low st P e z l : inv st P e -> len l = n -> inv (mkbr (r_vis st) (r_disc st) l (r_par st) z (r_time st)) P e.
  Proof.
    intros I L. destruct I. destruct i_wf0.
    assert (TM : forall x y, tconn st x y -> tconn (mkbr (r_vis st) (r_disc st) l (r_par st) z (r_time st)) x y) by (intros x y; apply tconn_mono; auto).
    constructor; cbn [r_vis r_disc r_low r_par r_time]; auto. constructor; assumption.
  Qed.

  Record mid (st0 : br) (P : list Z) (u : Z) (pre : list Z) (st : br) : Prop := {
    m_inv : inv st (u :: P) (-1);
    m_old : forall x, rng x -> vis st0 x = true -> vis st x = true /\ disc st x = disc st0 x /\ low st x = low st0 x /\ par st x = par st0 x;
    m_time : r_time st0 < r_time st;
    m_pu : par st u = par st0 u;
    m_du : disc st u = r_time st0;
    m_lu : low st u <= r_time st0;
    m_new : forall x, isnew st0 st x -> r_time st0 <= disc st x;
    m_in : forall x a b, isnew st0 st x -> ~ isnew st0 st a -> lw a b u x;
    m_pre : forall y, In y pre -> vis st y = true;
    m_l1u : forall y, In y pre -> In y P -> y <> par st0 u -> low st u <= disc st0 y;
    m_l1 : forall x y, isnew st0 st x -> x <> u -> In y P -> adj x y -> low st u <= disc st0 y;
    m_l2 : low st u < disc st u -> exists x y, isnew st0 st x /\ In y P /\ adj x y /\ ~ (x = u /\ y = par st0 u) /\ disc st0 y = low st u;
    m_br : exists B, r_bridges st = r_bridges st0 ++ B /\ NoDup (map snd B) /\ forall a b, In (a, b) B <-> isnew st0 st b /\ b <> u /\ a = par st b /\ bridgeZ a b }.

  Lemma inv_setpar st P v u : inv st P (-1) -> rng v -> vis st v = false -> rng u ->
    inv (mkbr (r_vis st) (r_disc st) (r_low st) (zupd (r_par st) v u) (r_bridges st) (r_time st)) P v.
  Proof.
    intros I Rv Vv Ru. set (st' := mkbr _ _ _ _ _ _). destruct I.
    assert (PE : forall x, rng x -> par st' x = if v =? x then u else par st x) by (intros x Rx; unfold st'; cbn [r_par]; destruct i_wf0; unfold rng in *; apply zn_zupd; lia).
    assert (PV : forall x, rng x -> vis st x = true -> par st' x = par st x) by (intros x Rx Vx; rewrite PE by exact Rx; destruct (Z.eqb_spec v x); [congruence|reflexivity]).
    assert (TM : forall x y, tconn st x y -> tconn st' x y) by (intros x y; apply tconn_mono; auto).
    constructor; auto.
    - destruct i_wf0. constructor; unfold st'; cbn [r_vis r_disc r_low r_par]; rewrite ?len_zupd; assumption.
    - intros x Rx Vx. change (vis st x = true) in Vx. rewrite PV by assumption. apply (i_par0 x Rx Vx).
    - intros x Rx Nx Vx. change (vis st x = false) in Vx. rewrite PE by exact Rx. destruct (Z.eqb_spec v x); [congruence|]. apply i_unpar0; auto. unfold rng in Rx. lia.
  Qed.

  Lemma mid_white st0 P u pre st : rng u -> vis st0 u = false -> mid st0 P u pre st -> (white st < white st0)%nat.
  Proof.
    intros Ru Vu M. unfold white. apply (filter_lt _ _ (zrange 0 n) u).
    - intros x Hx K. apply zrange_in in Hx. apply negb_true_iff in K. apply negb_true_iff. destruct (vis st0 x) eqn:E; [|reflexivity]. destruct (m_old _ _ _ _ _ M x Hx E) as [A _]. congruence.
    - apply zrange_in. exact Ru.
    - apply negb_false_iff. apply (i_gray _ _ _ (m_inv _ _ _ _ _ M) u). left. reflexivity.
    - apply negb_true_iff. exact Vu.
  Qed.

  Lemma mid_post st0 P u pre st : inv st0 P u -> rng u -> vis st0 u = false -> mid st0 P u pre st -> (forall v, adj u v <-> In v pre) ->
    inv st P (-1) /\ post st0 P u st.
  Proof.
    intros I0 Ru Vu M Hpre. assert (I := m_inv _ _ _ _ _ M). split.
    - destruct I. constructor; auto.
      + intros p Hp. apply i_gray0. right. exact Hp.
      + inversion i_sort0; assumption.
      + intros y z a b Hy Hz Hab. apply (i_chain _ _ _ I0); auto.
      + intros y z Hy Hz. apply i_gt0; right; assumption.
      + intros x y Rx Vx Nx Axy. destruct (Z.eq_dec x u) as [->|Hn]; [apply (m_pre _ _ _ _ _ M); apply Hpre; exact Axy|]. apply (i_black0 x y Rx Vx); [|exact Axy]. intros [X|X]; [congruence|contradiction].
    - destruct M as [M1 M2 M3 M4 M5 M6 M7 M8 M9 M10 M11 M12 M13]. constructor; auto.
      + lia.
      + apply (i_gray _ _ _ I u). left. reflexivity.
      + lia.
      + intros x y Nx Hy Axy Hne. destruct (Z.eq_dec x u) as [->|Hn]; [|apply (M11 x y); assumption]. apply M10; [apply Hpre; exact Axy|exact Hy|]. intros ->. apply Hne. auto.
  Qed.

  Lemma lget_rng {X} (d : X) (l : list X) i : len l = n -> rng i -> lget l i = Ret (zn d l i).
  Proof. intros L R0. apply lget_ok. unfold rng in R0. lia. Qed.
  Lemma aset_rng {X} (l : list X) i (v : X) : len l = n -> rng i -> aset l i v = Ret (zupd l i v).
  Proof. intros L R0. apply aset_ok. unfold rng in R0. lia. Qed.

  (** the test low[v] > disc[u] after the call for the child [v] *)
  Lemma bridge_test st P u v st1 : inv st (u :: P) v -> rng v -> vis st v = false -> par st v = u -> adj u v -> inv st1 (u :: P) (-1) -> post st (u :: P) v st1 ->
    (disc st u < low st1 v <-> bridgeZ u v).
  Proof.
    intros I Rv Vv Pv Auv I1 Q. destruct (i_gray _ _ _ I u (or_introl eq_refl)) as [Ru Vu].
    assert (NV : isnew st st1 v) by (split; [exact Rv|split; [exact Vv|apply (p_u _ _ _ _ Q)]]).
    assert (NU : ~ isnew st st1 u) by (intros (_ & X & _); congruence). split.
    - intros L. split; [exact Auv|]. intros K. destruct (lw_cross u v u v (isnew st st1) (new_dec st st1) K NU NV) as (c & d & Nc & Nd & Acd & N1 & N2).
      assert (Adc := Asym _ _ Acd). destruct (adj_rng _ _ Acd) as [Rc Rd]. destruct Nd as (_ & Vd0 & Vd1).
      assert (DP : ~ In d (u :: P)) by (intros X; apply (i_gray _ _ _ I) in X; destruct X; congruence).
      assert (Vc1 := i_black _ _ _ I1 d c Rd Vd1 DP Adc). assert (Vc : vis st c = true) by (destruct (vis st c) eqn:E; [reflexivity|exfalso; apply Nc; split; auto]).
      assert (CP : In c (u :: P)). { destruct (in_dec Z.eq_dec c (u :: P)) as [X|X]; [exact X|]. assert (Y := i_black _ _ _ I c d Rc Vc X Acd). congruence. }
      assert (LE : low st1 v <= disc st c). { apply (p_l1 _ _ _ _ Q d c); [split; auto|exact CP|exact Adc|]. rewrite Pv. intros [-> ->]. apply N1. auto. }
      assert (disc st c <= disc st u). { destruct CP as [<-|CP]; [lia|]. assert (S := i_sort _ _ _ I). inversion S as [|? ? _ F]; subst. rewrite Forall_forall in F. specialize (F c CP). lia. }
      lia.
    - intros [_ NL]. destruct (Z_lt_le_dec (disc st u) (low st1 v)) as [L|L]; [exact L|]. exfalso. apply NL.
      assert (DV := p_disc _ _ _ _ Q v NV). assert (DU := i_disc _ _ _ I u Ru Vu). destruct (p_l2 _ _ _ _ Q) as (x & y & Nx & Hy & Axy & Hne & Hd); [lia|]. rewrite Pv in Hne.
      assert (Ny : y <> v) by (intros ->; apply (i_gray _ _ _ I) in Hy; destruct Hy; congruence).
      assert (VP : ~ In v (u :: P)) by (intros X; apply (i_gray _ _ _ I) in X; destruct X; congruence).
      apply (lw_trans u v u y v); [apply (i_chain _ _ _ I); [left; reflexivity|exact Hy|tauto]|]. apply (lw_trans u v y x v).
      + apply lw_one; [apply Asym; exact Axy| |]; intros [A B]; [apply Hne; auto|congruence].
      + apply lw_sym. apply (p_in _ _ _ _ Q x u v Nx NU).
  Qed.

  Lemma NoDup_app_intro {X} (l1 l2 : list X) : NoDup l1 -> NoDup l2 -> (forall x, In x l1 -> ~ In x l2) -> NoDup (l1 ++ l2).
  Proof.
    intros N1 N2 D. induction l1 as [|a l1 IH]; [exact N2|]. cbn. inversion N1; subst. constructor.
    - intros X0. apply in_app_or in X0 as [X0|X0]; [contradiction|]. apply (D a); [left; reflexivity|exact X0].
    - apply IH; [assumption|]. intros x Hx. apply D. right. exact Hx.
  Qed.

  Lemma dfs_ok : forall f st P u, inv st P u -> rng u -> vis st u = false -> par st u = top P -> (P <> [] -> adj (top P) u) -> (white st < f)%nat ->
    wp (bridge_dfs f n_adj u st) (fun st' => inv st' P (-1) /\ post st P u st').
  Proof.
    induction f as [|f IH]; intros st0 P u I0 Ru Vu Pu HA Hf; [lia|]. cbn [bridge_dfs]. assert (W0 := i_wf _ _ _ I0).
    rewrite (aset_rng (r_vis st0)) by (destruct W0; assumption). cbn [bind]. rewrite (aset_rng (r_low st0)) by (destruct W0; assumption). cbn [bind]. rewrite (aset_rng (r_disc st0)) by (destruct W0; assumption). cbn [bind].
    fold (entered st0 u). rewrite (lget_rng [] n_adj) by auto. cbn [bind].
    assert (IE := inv_entered st0 P u I0 Ru Vu Pu HA). assert (T0 := i_time _ _ _ I0).
    assert (Hadj : forall v, adj u v <-> In v (zn [] n_adj u)) by (intros v; unfold adj; tauto).
    eapply wp_mono; [apply (wp_forM _ _ _ _ (mid st0 P u))|].
    - intros pre v post0 st El M. assert (I := m_inv _ _ _ _ _ M). assert (W := i_wf _ _ _ I).
      assert (Auv : adj u v) by (apply Hadj; rewrite El; apply in_or_app; right; left; reflexivity). destruct (adj_rng _ _ Auv) as [_ Rv].
      destruct (i_gray _ _ _ I u (or_introl eq_refl)) as [_ Vus]. assert (MD := m_du _ _ _ _ _ M). assert (ML := m_lu _ _ _ _ _ M).
      assert (NU : isnew st0 st u) by (split; auto).
      rewrite (lget_rng false (r_vis st)) by (destruct W; assumption). cbn [bind]. destruct (vis st v) eqn:Vv; cbn [negb].
      + rewrite (lget_rng (-1) (r_par st)) by (destruct W; assumption). cbn [bind]. destruct (Z.eqb_spec v (par st u)) as [Ev|Ev]; cbn [negb].
        * cbn [wp]. rewrite (m_pu _ _ _ _ _ M) in Ev. destruct M. constructor; auto.
          -- intros y Hy. apply in_app_or in Hy as [Hy|[<-|[]]]; auto.
          -- intros y Hy HP Hn. apply in_app_or in Hy as [Hy|[<-|[]]]; [auto|congruence].
        * rewrite (lget_rng 0 (r_low st)) by (destruct W; assumption). cbn [bind]. rewrite (lget_rng 0 (r_disc st)) by (destruct W; assumption). cbn [bind]. rewrite (aset_rng (r_low st)) by (destruct W; assumption). cbn [bind wp].
          set (m := Z.min (low st u) (disc st v)). set (st2 := mkbr _ _ _ _ _ _).
          assert (LE : forall x, rng x -> low st2 x = if u =? x then m else low st x) by (intros x Rx; unfold st2; cbn [r_low]; destruct W; unfold rng in *; apply zn_zupd; lia).
          assert (LU : low st2 u = m) by (rewrite LE, Z.eqb_refl; auto).
          rewrite (m_pu _ _ _ _ _ M) in Ev.
          constructor; unfold st2; cbn [r_vis r_disc r_par r_time r_bridges]; fold st2.
          -- apply inv_low; [exact I|]. rewrite len_zupd. destruct W; assumption.
          -- intros x Rx Vx. destruct (m_old _ _ _ _ _ M x Rx Vx) as (A & B & C & D). split; [exact A|]. split; [exact B|]. split; [|exact D]. rewrite LE by exact Rx. destruct (Z.eqb_spec u x); [congruence|exact C].
          -- apply (m_time _ _ _ _ _ M).
          -- apply (m_pu _ _ _ _ _ M).
          -- exact MD.
          -- rewrite LU. unfold m. lia.
          -- apply (m_new _ _ _ _ _ M).
          -- apply (m_in _ _ _ _ _ M).
          -- intros y Hy. apply in_app_or in Hy as [Hy|[<-|[]]]; [apply (m_pre _ _ _ _ _ M); exact Hy|exact Vv].
          -- intros y Hy HP Hn. rewrite LU. unfold m. apply in_app_or in Hy as [Hy|[<-|[]]]; [assert (X := m_l1u _ _ _ _ _ M y Hy HP Hn); lia|]. destruct (i_gray _ _ _ I0 v HP) as [_ V0]. destruct (m_old _ _ _ _ _ M v Rv V0) as (_ & B & _). lia.
          -- intros x y Nx Hx Hy Axy. rewrite LU. assert (X := m_l1 _ _ _ _ _ M x y Nx Hx Hy Axy). unfold m. lia.
          -- rewrite LU. intros L. change (m < disc st u) in L. destruct (Z_lt_le_dec (disc st v) (low st u)) as [K|K].
             ++ unfold m in *. rewrite Z.min_r in * by lia. exists u, v. split; [exact NU|].
                assert (V0 : vis st0 v = true). { destruct (vis st0 v) eqn:E; [reflexivity|]. assert (X := m_new _ _ _ _ _ M v). unfold isnew in X. assert (Y := X (conj Rv (conj E Vv))). lia. }
                assert (VP : In v P). { destruct (in_dec Z.eq_dec v P) as [X|X]; [exact X|]. assert (Y := i_black _ _ _ I0 v u Rv V0 X (Asym _ _ Auv)). congruence. }
                split; [exact VP|]. split; [exact Auv|]. split; [intros [_ X]; congruence|]. destruct (m_old _ _ _ _ _ M v Rv V0) as (_ & B & _). lia.
             ++ unfold m in *. rewrite Z.min_l in * by lia. apply (m_l2 _ _ _ _ _ M). exact L.
          -- apply (m_br _ _ _ _ _ M).
      + rewrite (aset_rng (r_par st)) by (destruct W; assumption). cbn [bind]. set (sv := mkbr _ _ _ _ _ _).
        assert (Iv : inv sv (u :: P) v) by (apply inv_setpar; assumption).
        assert (PV : par sv v = u) by (unfold sv; cbn [r_par]; apply zn_zupd_eq; destruct W; unfold rng in *; lia).
        assert (PO : forall x, rng x -> x <> v -> par sv x = par st x) by (intros x Rx Nx; unfold sv; cbn [r_par]; apply zn_zupd_ne; destruct W; unfold rng in *; auto; lia).
        apply wp_bind. eapply wp_mono; [apply (IH sv (u :: P) v Iv Rv Vv)|].
        * exact PV.
        * intros _. exact Auv.
        * assert (X := mid_white st0 P u pre st Ru Vu M). change (white sv) with (white st). lia.
        * intros st1 [I1 Q]. assert (W1 := i_wf _ _ _ I1).
          rewrite (lget_rng 0 (r_low st1)) by (destruct W1; assumption). cbn [bind]. rewrite (lget_rng 0 (r_low st1)) by (destruct W1; assumption). cbn [bind]. rewrite (aset_rng (r_low st1)) by (destruct W1; assumption). cbn [bind].
          set (m := Z.min (low st1 u) (low st1 v)). assert (NEQ : v <> u) by (intros ->; congruence).
          rewrite (lget_rng 0 (zupd (r_low st1) u m)) by (rewrite ?len_zupd; destruct W1; assumption). cbn [bind]. rewrite (lget_rng 0 (r_disc st1)) by (destruct W1; assumption). cbn [bind wp].
          rewrite zn_zupd_ne by (destruct W1; unfold rng in *; auto; lia).
          assert (F1 : forall x, rng x -> vis st x = true -> vis st1 x = true /\ disc st1 x = disc st x /\ low st1 x = low st x /\ par st1 x = par st x).
          { intros x Rx Vx. destruct (p_old _ _ _ _ Q x Rx Vx) as (A & B & C & D). split; [exact A|]. split; [exact B|]. split; [exact C|]. rewrite D. apply PO; [exact Rx|]. intros ->. congruence. }
          destruct (F1 u Ru Vus) as (U1 & U2 & U3 & U4).
          assert (BT := bridge_test sv P u v st1 Iv Rv Vv PV Auv I1 Q). change (disc sv u) with (disc st u) in BT. rewrite U2.
          set (bs := if disc st u <? low st1 v then _ else _). set (st2 := mkbr _ _ _ _ _ _).
          assert (LE : forall x, rng x -> low st2 x = if u =? x then m else low st1 x) by (intros x Rx; unfold st2; cbn [r_low]; destruct W1; unfold rng in *; apply zn_zupd; lia).
          assert (LU : low st2 u = m) by (rewrite LE, Z.eqb_refl; auto).
          assert (N2 : forall x, isnew st0 st2 x <-> isnew st0 st x \/ isnew sv st1 x).
          { intros x. unfold isnew. unfold st2, sv; cbn [r_vis]. split.
            - intros (A & B & C). destruct (vis st x) eqn:E; [left; auto|right; auto].
            - intros [(A & B & C)|(A & B & C)].
              + split; [exact A|]. split; [exact B|]. apply (F1 x A C).
              + split; [exact A|]. split; [|exact C]. destruct (vis st0 x) eqn:E; [|reflexivity]. destruct (m_old _ _ _ _ _ M x A E) as [X _]. congruence. }
          assert (NVn : isnew sv st1 v) by (split; [exact Rv|split; [exact Vv|apply (p_u _ _ _ _ Q)]]).
          assert (DVn := p_disc _ _ _ _ Q v NVn). change (r_time sv) with (r_time st) in DVn. assert (DUn := i_disc _ _ _ I u Ru Vus).
          assert (FP : forall y, In y P -> rng y /\ vis st0 y = true /\ disc st y = disc st0 y).
          { intros y Hy. destruct (i_gray _ _ _ I0 y Hy) as [A B]. destruct (m_old _ _ _ _ _ M y A B) as (_ & C & _). auto. }
          constructor; unfold st2; cbn [r_vis r_disc r_par r_time r_bridges]; fold st2.
          -- apply inv_low; [exact I1|]. rewrite len_zupd. destruct W1; assumption.
          -- intros x Rx Vx. destruct (m_old _ _ _ _ _ M x Rx Vx) as (A & B & C & D). destruct (F1 x Rx A) as (A1 & B1 & C1 & D1).
             split; [exact A1|]. split; [congruence|]. split; [|congruence]. rewrite LE by exact Rx. destruct (Z.eqb_spec u x); [congruence|congruence].
          -- assert (X := m_time _ _ _ _ _ M). assert (Y := p_time _ _ _ _ Q). change (r_time sv) with (r_time st) in Y. lia.
          -- rewrite U4. apply (m_pu _ _ _ _ _ M).
          -- lia.
          -- rewrite LU. unfold m. lia.
          -- intros x Nx. apply N2 in Nx as [Nx|Nx].
             ++ assert (X := m_new _ _ _ _ _ M x Nx). destruct Nx as (A & _ & B). destruct (F1 x A B) as (_ & Y & _). lia.
             ++ assert (X := p_disc _ _ _ _ Q x Nx). change (r_time sv) with (r_time st) in X. assert (Y := m_time _ _ _ _ _ M). lia.
          -- intros x a b Nx Na. rewrite N2 in Na. apply N2 in Nx as [Nx|Nx]; [apply (m_in _ _ _ _ _ M); tauto|]. apply (lw_trans a b u v x).
             ++ apply lw_one; [exact Auv| |]; intros [A B]; apply Na; [left|right]; congruence.
             ++ apply (p_in _ _ _ _ Q); tauto.
          -- intros y Hy. apply in_app_or in Hy as [Hy|[<-|[]]]; [|apply (p_u _ _ _ _ Q)]. assert (X := m_pre _ _ _ _ _ M y Hy).
             assert (Ry : rng y). { assert (Y : adj u y) by (apply Hadj; rewrite El; apply in_or_app; left; exact Hy). apply (adj_rng _ _ Y). } apply (F1 y Ry X).
          -- intros y Hy HP Hn. rewrite LU. unfold m. apply in_app_or in Hy as [Hy|[<-|[]]]; [assert (X := m_l1u _ _ _ _ _ M y Hy HP Hn); lia|]. exfalso. destruct (FP v HP) as (_ & X & _). destruct (m_old _ _ _ _ _ M v Rv X) as [Y _]. congruence.
          -- intros x y Nx Hx Hy Axy. rewrite LU. unfold m. apply N2 in Nx as [Nx|Nx].
             ++ assert (X := m_l1 _ _ _ _ _ M x y Nx Hx Hy Axy). lia.
             ++ destruct (FP y Hy) as (Ry & V0y & Dy). assert (X : low st1 v <= disc sv y). { apply (p_l1 _ _ _ _ Q x y Nx); [right; exact Hy|exact Axy|]. rewrite PV. intros [_ ->]. congruence. } change (disc sv y) with (disc st y) in X. lia.
          -- rewrite LU. intros L. destruct (Z_lt_le_dec (low st1 v) (low st1 u)) as [K|K].
             ++ unfold m in *. rewrite Z.min_r in * by lia. change (low st1 v < disc st1 u) in L. destruct (p_l2 _ _ _ _ Q) as (x & y & Nx & Hy & Axy & Hne & Hd); [lia|]. change (disc sv y) with (disc st y) in Hd. destruct Hy as [<-|Hy]; [lia|].
                exists x, y. split; [apply N2; auto|]. split; [exact Hy|]. split; [exact Axy|]. destruct (FP y Hy) as (_ & _ & Dy). split; [|lia]. intros [-> _]. destruct Nx as (_ & X & _). change (vis st u = false) in X. congruence.
             ++ unfold m in *. rewrite Z.min_l in * by lia. change (low st1 u < disc st1 u) in L. destruct (m_l2 _ _ _ _ _ M) as (x & y & Nx & Hy & Axy & Hne & Hd); [lia|]. exists x, y. split; [apply N2; auto|]. repeat (split; [assumption|]). lia.
          -- destruct (m_br _ _ _ _ _ M) as (B & EB & NB & HB). destruct (p_br _ _ _ _ Q) as (B1 & EB1 & NB1 & HB1). change (r_bridges sv) with (r_bridges st) in EB1.
             exists (B ++ B1 ++ (if disc st u <? low st1 v then [(u, v)] else [])). split.
             { unfold bs. destruct (disc st u <? low st1 v); rewrite EB1, EB, <- ?app_assoc, ?app_nil_r; reflexivity. } split.
             { rewrite !map_app. apply NoDup_app_intro; [exact NB| |].
               - apply NoDup_app_intro; [exact NB1|destruct (_ <? _); cbn; repeat constructor; intros []|]. intros x Hx Hx'. apply in_map_iff in Hx as ([a b] & <- & Hx). apply HB1 in Hx as (_ & X & _). destruct (_ <? _); [|destruct Hx']. destruct Hx' as [Y|[]]. apply X. cbn in *. congruence.
               - intros x Hx Hx'. apply in_map_iff in Hx as ([a b] & <- & Hx). cbn [snd] in *. apply HB in Hx as (Nb & _). apply in_app_or in Hx' as [Hx'|Hx'].
                 + apply in_map_iff in Hx' as ([a' b'] & Ebb & Hx'). cbn [snd] in Ebb. subst b'. apply HB1 in Hx' as ((_ & Nb' & _) & _). change (vis st b = false) in Nb'. destruct Nb as (_ & _ & Nb). congruence.
                 + destruct (_ <? _); [|destruct Hx']. destruct Hx' as [Y|[]]. cbn in Y. subst b. destruct Nb as (_ & _ & Nb). congruence. }
             intros a b. rewrite !in_app_iff, HB, HB1, N2. split.
             ++ intros [(Nb & X & Y & Z)|[(Nb & X & Y & Z)|K]].
                ** split; [auto|]. split; [exact X|]. split; [|exact Z]. destruct Nb as (A1 & _ & A2). destruct (F1 b A1 A2) as (_ & _ & _ & D). congruence.
                ** split; [auto|]. split; [|auto]. intros ->. destruct Nb as (_ & Nb & _). change (vis st u = false) in Nb. congruence.
                ** destruct (Z.ltb_spec (disc st u) (low st1 v)) as [L|L]; [|destruct K]. destruct K as [[= <- <-]|[]]. split; [auto|]. split; [exact NEQ|]. split; [rewrite (p_pu _ _ _ _ Q); congruence|]. apply BT. exact L.
             ++ intros ([Nb|Nb] & X & Y & Z).
                ** left. split; [exact Nb|]. split; [exact X|]. split; [|exact Z]. destruct Nb as (A1 & _ & A2). destruct (F1 b A1 A2) as (_ & _ & _ & D). congruence.
                ** destruct (Z.eq_dec b v) as [->|Hbv]; [|right; left; auto]. right. right. rewrite (p_pu _ _ _ _ Q), PV in Y. subst a. apply BT in Z. destruct (Z.ltb_spec (disc st u) (low st1 v)); [left; reflexivity|lia].
    - assert (VE : forall x, rng x -> vis (entered st0 u) x = if u =? x then true else vis st0 x) by (intros; apply vis_entered; auto).
      assert (DE : forall x, rng x -> disc (entered st0 u) x = if u =? x then r_time st0 else disc st0 x) by (intros; apply disc_entered; auto).
      assert (LE : forall x, rng x -> low (entered st0 u) x = if u =? x then r_time st0 else low st0 x) by (intros; apply low_entered; auto).
      assert (NE : forall x, isnew st0 (entered st0 u) x -> x = u). { intros x (A & B & C). rewrite VE in C by exact A. destruct (Z.eqb_spec u x); [auto|congruence]. }
      constructor.
      + exact IE.
      + intros x Rx Vx. rewrite VE, DE, LE by exact Rx. destruct (Z.eqb_spec u x); [congruence|]. auto.
      + cbn [entered r_time]. lia.
      + reflexivity.
      + rewrite DE, Z.eqb_refl by exact Ru. reflexivity.
      + rewrite LE, Z.eqb_refl by exact Ru. lia.
      + intros x Nx. rewrite (NE x Nx), DE, Z.eqb_refl by exact Ru. lia.
      + intros x a b Nx _. rewrite (NE x Nx). constructor.
      + intros y [].
      + intros y [].
      + intros x y Nx Hn. exfalso. apply Hn. apply NE. exact Nx.
      + rewrite LE, DE, Z.eqb_refl by exact Ru. lia.
      + exists []. cbn [entered r_bridges]. rewrite app_nil_r. split; [reflexivity|]. split; [constructor|]. intros a b. split; [intros []|]. intros (Nb & X & _). exfalso. apply X. apply NE. exact Nb.
    - intros st M. apply (mid_post st0 P u (zn [] n_adj u) st); auto.
  Qed.

  (** the loop over all vertices *)
  Definition start : br := mkbr (repeat false (Z.to_nat n)) (repeat 0 (Z.to_nat n)) (repeat 0 (Z.to_nat n)) (repeat (-1) (Z.to_nat n)) [] 0.
  Lemma zn_repeat {X} (d : X) k i : zn d (repeat d k) i = d.
  Proof. unfold zn. generalize (Z.to_nat i) as j. induction k; intros [|j]; cbn; auto. Qed.
  Lemma len_repeat {X} (d : X) : len (repeat d (Z.to_nat n)) = n.
  Proof. unfold len. rewrite repeat_length. lia. Qed.
  Lemma inv_start : inv start [] (-1).
  Proof.
    assert (VF : forall x, vis start x = false) by (intros; apply zn_repeat). unfold start in *.
    constructor; cbn [r_vis r_disc r_low r_par r_time] in *; try (intros; rewrite ?VF in *; discriminate); try (intros ? []; fail); try (intros ? ? []; fail).
    - constructor; apply len_repeat.
    - constructor.
    - intros y z a b [].
    - intros x _ _ _. apply zn_repeat.
  Qed.

  Lemma tconn_lw st a b x y : (forall z, rng z -> vis st z = true -> par st z <> -1 -> adj (par st z) z) ->
    ~ (rng a /\ vis st a = true /\ par st a = b) -> ~ (rng b /\ vis st b = true /\ par st b = a) -> tconn st x y -> lw a b x y.
  Proof.
    intros HP Na Nb K. induction K as [|y K IH R0 V N|z K IH R0 V N]; [constructor| |]; assert (A := HP _ R0 V N).
    - apply (lw_step a b x y); [exact IH|apply Asym; exact A| |]; intros [-> E]; [apply Na|apply Nb]; auto.
    - apply (lw_step a b x (par st z)); [exact IH|exact A| |]; intros [E ->]; [apply Nb|apply Na]; auto.
  Qed.

  Lemma all_ok : wp (forM (zrange 0 n) (fun i st => vi <- lget (r_vis st) i ;; if negb vi then bridge_dfs (S (Z.to_nat n)) n_adj i st else Ret st) start)
    (fun st => (forall a b, bridgeZ a b <-> (In (a, b) (r_bridges st) \/ In (b, a) (r_bridges st))) /\ NoDup (map snd (r_bridges st)) /\
       (forall a b, In (a, b) (r_bridges st) -> rng a /\ rng b /\ ~ In (b, a) (r_bridges st))).
  Proof.
    eapply wp_mono; [apply (wp_forM _ _ _ _ (fun pre st => inv st [] (-1) /\ (forall x, In x pre -> vis st x = true) /\ NoDup (map snd (r_bridges st)) /\
       (forall a b, In (a, b) (r_bridges st) <-> rng b /\ vis st b = true /\ par st b <> -1 /\ a = par st b /\ bridgeZ a b)))|].
    - intros pre u post0 st El (I & Hpre & ND & HB). assert (Ru : rng u) by (apply zrange_in; rewrite El; apply in_or_app; right; left; reflexivity). assert (W := i_wf _ _ _ I).
      rewrite (lget_rng false (r_vis st)) by (destruct W; assumption). cbn [bind]. destruct (vis st u) eqn:Vu; cbn [negb].
      + cbn [wp]. split; [exact I|]. split; [|auto]. intros x Hx. apply in_app_or in Hx as [Hx|[<-|[]]]; auto.
      + assert (Iu : inv st [] u). { destruct I. constructor; auto. intros x Rx Hx. apply i_unpar0; [exact Rx|]. unfold rng in Rx. lia. }
        assert (PU : par st u = -1) by (apply (i_unpar _ _ _ I); auto; unfold rng in Ru; lia).
        eapply wp_mono; [apply (dfs_ok _ st [] u Iu Ru Vu PU)|].
        * intros X. congruence.
        * unfold white. assert (L : forall l, (length (filter (fun x => negb (vis st x)) l) <= length l)%nat) by (induction l as [|a l IHl]; cbn; [lia|]; destruct (negb _); cbn; lia). specialize (L (zrange 0 n)). rewrite zrange_length in L. replace (n - 0) with n in L by lia. lia.
        * intros st' [I' Q]. split; [exact I'|]. destruct (p_br _ _ _ _ Q) as (B & EB & NB & HB'). split.
          { intros x Hx. apply in_app_or in Hx as [Hx|[<-|[]]]; [|apply (p_u _ _ _ _ Q)]. assert (Rx : rng x) by (apply zrange_in; rewrite El; apply in_or_app; left; exact Hx). apply (p_old _ _ _ _ Q x Rx). auto. } split.
          { rewrite EB, map_app. apply NoDup_app_intro; [exact ND|exact NB|]. intros x Hx Hx'. apply in_map_iff in Hx as ([a b] & <- & Hx). apply in_map_iff in Hx' as ([a' b'] & E & Hx'). cbn in E. subst b'. apply HB in Hx as (_ & X & _). apply HB' in Hx' as ((_ & Y & _) & _). cbn in *. congruence. }
          intros a b. rewrite EB, in_app_iff, HB, HB'. split.
          -- intros [(Rb & Vb & Nb & Ea & BR)|((Rb & V0 & Vb) & Hb & Ea & BR)].
             ++ destruct (p_old _ _ _ _ Q b Rb Vb) as (X & _ & _ & Y). rewrite Y. auto.
             ++ split; [exact Rb|]. split; [exact Vb|]. split; [|auto]. intros E. destruct BR as [A _]. destruct (adj_rng _ _ A) as [Ra _]. unfold rng in Ra. lia.
          -- intros (Rb & Vb & Nb & Ea & BR). destruct (vis st b) eqn:V0.
             ++ left. destruct (p_old _ _ _ _ Q b Rb V0) as (X & _ & _ & Y). rewrite Y in *. auto.
             ++ right. split; [split; auto|]. split; [|auto]. intros ->. rewrite (p_pu _ _ _ _ Q) in Nb. congruence.
    - split; [apply inv_start|]. split; [intros x []|]. split; [constructor|]. intros a b. split; [intros []|]. intros (Rb & Vb & _). unfold start in Vb. cbn [r_vis] in Vb. rewrite zn_repeat in Vb. discriminate.
    - intros st (I & Hall & ND & HB). assert (VA : forall x, rng x -> vis st x = true) by (intros x Rx; apply Hall; apply zrange_in; exact Rx).
      assert (PA : forall z, rng z -> vis st z = true -> par st z <> -1 -> adj (par st z) z). { intros z Rz Vz Nz. destruct (i_par _ _ _ I z Rz Vz) as [X|(_ & _ & X & _)]; [contradiction|exact X]. }
      split; [|split; [exact ND|]].
      + intros a b. split.
        * intros BR. destruct BR as [A NL]. destruct (adj_rng _ _ A) as [Ra Rb].
          destruct (Z.eq_dec (par st b) a) as [E|E]; [left; apply HB; split; [exact Rb|]; split; [auto|]; split; [unfold rng in Ra; lia|]; split; [auto|]; split; assumption|].
          destruct (Z.eq_dec (par st a) b) as [E'|E'].
          -- right. apply HB. split; [exact Ra|]. split; [auto|]. split; [unfold rng in Rb; lia|]. split; [auto|]. split; [apply Asym; exact A|]. intros K. apply NL. apply lw_swap. apply lw_sym. exact K.
          -- exfalso. apply NL. apply (tconn_lw st a b a b PA); [tauto|tauto|]. apply (i_tree _ _ _ I); auto.
        * intros [H|H]; apply HB in H as (_ & _ & _ & _ & BR); [exact BR|]. destruct BR as [A NL]. split; [apply Asym; exact A|]. intros K. apply NL. apply lw_swap. apply lw_sym. exact K.
      + intros a b H. apply HB in H as (Rb & Vb & Nb & Ea & BR). destruct (proj1 (conj (adj_rng a b (proj1 BR)) I)) as [Ra _]. split; [exact Ra|]. split; [exact Rb|]. intros H. apply HB in H as (_ & Va & Na & Eb & _).
        destruct (i_par _ _ _ I b Rb Vb) as [X|(_ & _ & _ & X)]; [contradiction|]. destruct (i_par _ _ _ I a Ra Va) as [Y|(_ & _ & _ & Y)]; [contradiction|]. rewrite <- Ea in X. rewrite <- Eb in Y. lia.
  Qed.
End B.
