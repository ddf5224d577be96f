(** Proofs for DisjointSetForest. [P k] is the ghost list of the sets visited from k up to its root. *)
From Coq Require Import Relations.
From Verif Require Import Base DsfModel DsfSpec.

Lemma filter_len_add {V} (f g h : V -> bool) l : (forall x, In x l -> h x = f x || g x) -> (forall x, In x l -> f x = true -> g x = false) ->
  len (filter h l) = len (filter f l) + len (filter g l).
Proof.
  induction l as [|x l IH]; intros H1 H2; [reflexivity|]. simpl.
  assert (IHl : len (filter h l) = len (filter f l) + len (filter g l)) by (apply IH; intros; [apply H1|apply H2]; simpl; auto).
  rewrite (H1 x) by (left; reflexivity). specialize (H2 x ltac:(left; reflexivity)). unfold len in *.
  destruct (f x), (g x); simpl; try (specialize (H2 eq_refl); discriminate); cbn [length]; lia.
Qed.
Lemma filter_ext_in' {V} (f g : V -> bool) l : (forall x, In x l -> f x = g x) -> filter f l = filter g l.
Proof. induction l as [|x l IH]; intros H; [reflexivity|]. simpl. rewrite (H x) by (left; reflexivity). rewrite IH by (intros; apply H; right; assumption). reflexivity. Qed.

Section D.
  Context {K : Type} (eqb : K -> K -> bool) (ES : forall x y, reflect (x = y) (eqb x y)).
  Notation dsf := (list (K * (K * Z))).
  Notation dget := (dget eqb). Notation dset := (dset eqb).
  Notation par := (par eqb). Notation siz := (siz eqb).

  Lemma eqb_refl x : eqb x x = true.
  Proof. destruct (ES x x); congruence. Qed.
  Lemma Kdec (x y : K) : {x = y} + {x <> y}.
  Proof. destruct (ES x y); [left|right]; assumption. Qed.
  Lemma dget_dset {V} (t : list (K * V)) k v k' : dget (dset t k v) k' = if eqb k' k then Some v else dget t k'.
  Proof.
    induction t as [|[a w] t IH]; simpl.
    - destruct (ES k' k); reflexivity.
    - destruct (ES k a) as [Ha|Ha]; simpl; [subst a; destruct (ES k' k); reflexivity|].
      rewrite IH. destruct (ES k' a), (ES k' k); congruence.
  Qed.
  Lemma dget_none {V} (t : list (K * V)) k : dget t k = None <-> ~ In k (map fst t).
  Proof.
    induction t as [|[a w] t IH]; simpl; [tauto|]. destruct (ES k a) as [->|Hk]; [split; [discriminate|tauto]|]. rewrite IH. firstorder congruence.
  Qed.
  Lemma dget_some {V} (t : list (K * V)) k : In k (map fst t) -> exists v, dget t k = Some v.
  Proof. intros H. destruct (dget t k) as [v|] eqn:E; [eauto|]. apply dget_none in E. contradiction. Qed.
  Lemma dset_keys {V} (t : list (K * V)) k v : In k (map fst t) -> map fst (dset t k v) = map fst t.
  Proof.
    induction t as [|[a w] t IH]; intros H; [destruct H|]. simpl. destruct (ES k a) as [->|Hk]; [reflexivity|]. simpl in *.
    f_equal. apply IH. destruct H as [->|H]; [contradiction|exact H].
  Qed.
  Lemma dset_new {V} (t : list (K * V)) k v : ~ In k (map fst t) -> dset t k v = t ++ [(k, v)].
  Proof.
    induction t as [|[a w] t IH]; intros H; [reflexivity|]. simpl in *. destruct (ES k a) as [->|Hk]; [tauto|]. rewrite IH by tauto. reflexivity.
  Qed.
  Lemma dset_same {V} (t : list (K * V)) k v : dget t k = Some v -> dset t k v = t.
  Proof.
    induction t as [|[a w] t IH]; intros H; [discriminate|]. simpl in *. destruct (ES k a) as [->|Hk]; [congruence|]. rewrite IH by exact H. reflexivity.
  Qed.

  Lemma par_in t k p : par t k = Some p -> In k (map fst t).
  Proof. unfold DsfModel.par. destruct (dget t k) eqn:E; [|discriminate]. intros _. destruct (in_dec Kdec k (map fst t)) as [H|H]; [exact H|]. apply dget_none in H. congruence. Qed.
  Lemma sp_par t k p z : In k (map fst t) -> par (set_parent eqb t k p) z = if eqb z k then Some p else par t z.
  Proof.
    intros H. unfold set_parent, DsfModel.par. destruct (dget_some t k H) as [[q s] E]. rewrite E, dget_dset. destruct (ES z k) as [->|]; reflexivity.
  Qed.
  Lemma sp_siz t k p z : siz (set_parent eqb t k p) z = siz t z.
  Proof.
    unfold set_parent, DsfModel.siz. destruct (dget t k) as [[q s]|] eqn:E; [|reflexivity]. rewrite dget_dset. destruct (ES z k) as [->|]; [rewrite E|]; reflexivity.
  Qed.
  Lemma sp_keys t k p : map fst (set_parent eqb t k p) = map fst t.
  Proof.
    unfold set_parent. destruct (dget t k) as [[q s]|] eqn:E; [|reflexivity]. apply dset_keys. 
    destruct (in_dec Kdec k (map fst t)) as [H|H]; [exact H|]. apply dget_none in H. congruence.
  Qed.
  Lemma ss_siz t k s z : In k (map fst t) -> siz (set_size eqb t k s) z = if eqb z k then Some s else siz t z.
  Proof.
    intros H. unfold set_size, DsfModel.siz. destruct (dget_some t k H) as [[q s'] E]. rewrite E, dget_dset. destruct (ES z k) as [->|]; reflexivity.
  Qed.
  Lemma ss_par t k s z : par (set_size eqb t k s) z = par t z.
  Proof.
    unfold set_size, DsfModel.par. destruct (dget t k) as [[q s']|] eqn:E; [|reflexivity]. rewrite dget_dset. destruct (ES z k) as [->|]; [rewrite E|]; reflexivity.
  Qed.
  Lemma ss_keys t k s : map fst (set_size eqb t k s) = map fst t.
  Proof.
    unfold set_size. destruct (dget t k) as [[q s']|] eqn:E; [|reflexivity]. apply dset_keys. 
    destruct (in_dec Kdec k (map fst t)) as [H|H]; [exact H|]. apply dget_none in H. congruence.
  Qed.
  Lemma sp_same t k p : par t k = Some p -> set_parent eqb t k p = t.
  Proof.
    unfold set_parent, DsfModel.par. destruct (dget t k) as [[q s]|] eqn:E; [|discriminate]. simpl. intros H. injection H as ->. apply dset_same, E.
  Qed.

  (** ** parent paths *)
  Inductive pth (f : K -> option K) : K -> list K -> Prop :=
  | p_root k : f k = Some k -> pth f k [k]
  | p_step k p l : f k = Some p -> p <> k -> pth f p l -> pth f k (k :: l).
  Lemma pth_ext f g k l : pth f k l -> (forall z, In z l -> g z = f z) -> pth g k l.
  Proof.
    induction 1 as [k E|k p l E Hn _ IH]; intros H; [constructor; rewrite H by (left; reflexivity); exact E|].
    econstructor; [rewrite H by (left; reflexivity); exact E|exact Hn|]. apply IH. intros; apply H; right; assumption.
  Qed.
  Lemma pth_det f k l : pth f k l -> forall l', pth f k l' -> l = l'.
  Proof.
    induction 1 as [k E|k p l E Hn _ IH]; intros l' H'; inversion H'; subst; try congruence. f_equal. apply IH. congruence.
  Qed.
  Lemma pth_suffix f k l : pth f k l -> forall z, In z l -> exists a b, l = a ++ b /\ pth f z b /\ (z <> k -> a <> []).
  Proof.
    induction 1 as [k E|k p l E Hn Hp IH]; intros z Hz.
    - destruct Hz as [<- | []]. exists [], [k]. repeat split; [constructor; exact E|congruence].
    - destruct Hz as [<- | Hz]; [exists [], (k :: l); repeat split; [econstructor; eauto|congruence]|].
      destruct (IH z Hz) as (a & b & -> & Hb & _). exists (k :: a), b. repeat split; [exact Hb|discriminate].
  Qed.
  Lemma pth_nodup f k l : pth f k l -> NoDup l.
  Proof.
    induction 1 as [k E|k p l E Hn Hp IH]; [repeat constructor; intros []|]. constructor; [|exact IH]. intros Hk.
    destruct (pth_suffix _ _ _ Hp k Hk) as (a & b & -> & Hb & _).
    assert (Hfull : pth f k (k :: a ++ b)) by (econstructor; eauto). pose proof (pth_det _ _ _ Hb _ Hfull) as E'.
    assert (length b = length (k :: a ++ b)) by congruence. simpl in H. rewrite app_length in H. lia.
  Qed.
  Lemma pth_last f k l d : pth f k l -> f (last l d) = Some (last l d) /\ In (last l d) l.
  Proof.
    induction 1 as [k E|k p l E Hn Hp [IH1 IH2]]; [simpl; auto|].
    destruct l as [|x l]; [inversion Hp|]. change (last (k :: x :: l) d) with (last (x :: l) d). split; [exact IH1|right; exact IH2].
  Qed.
  Lemma pth_root_last f k l z d : pth f k l -> In z l -> f z = Some z -> last l d = z.
  Proof.
    intros H. induction H as [k E|k p l E Hn Hp IH]; intros Hz Ez; [destruct Hz as [<- | []]; reflexivity|].
    destruct Hz as [<- | Hz]; [congruence|]. destruct l as [|x l]; [inversion Hp|].
    change (last (k :: x :: l) d) with (last (x :: l) d). apply IH; assumption.
  Qed.
  Lemma pth_hd f k l : pth f k l -> In k l.
  Proof. destruct 1; left; reflexivity. Qed.
  Lemma pth_dom t k l z : pth (par t) k l -> In z l -> In z (map fst t).
  Proof.
    intros H. induction H as [k E|k p l E Hn Hp IH]; intros Hz.
    - destruct Hz as [<- | []]. eapply par_in; eauto.
    - destruct Hz as [<- | Hz]; [eapply par_in; eauto|auto].
  Qed.
  Lemma pth_len t k l : pth (par t) k l -> (length l <= length t)%nat.
  Proof.
    intros H. rewrite <- (map_length fst t). apply NoDup_incl_length; [eapply pth_nodup; eauto|]. intros z Hz. eapply pth_dom; eauto.
  Qed.
  Lemma last_indep (l : list K) d d' : l <> [] -> last l d = last l d'.
  Proof. induction l as [|x l IH]; intros H; [contradiction|]. destruct l as [|y l]; [reflexivity|]. apply IH. discriminate. Qed.

  Lemma gp_ok t k p : par t k = Some p -> get_parent eqb t k = Ret p.
  Proof. unfold get_parent. intros ->. reflexivity. Qed.
  Lemma gs_ok t k p : siz t k = Some p -> get_size eqb t k = Ret p.
  Proof. unfold get_size. intros ->. reflexivity. Qed.
  Lemma find_loop_ok t k l fuel : pth (par t) k l -> (length l <= fuel)%nat -> find_loop eqb fuel t k = Ret (last l k, t).
  Proof.
    intros H. revert fuel. induction H as [k E|k p l E Hn Hp IH]; intros fuel Hf; (destruct fuel as [|fuel]; [simpl in Hf; lia|]);
      unfold find_loop in *; cbn [while_loop]; rewrite (gp_ok _ _ _ E); cbn [bind].
    - rewrite eqb_refl. reflexivity.
    - destruct (ES p k); [contradiction|]. assert (exists pp, par t p = Some pp) as (pp & Epp) by (inversion Hp; eauto).
      rewrite (gp_ok _ _ _ Epp). cbn [bind]. rewrite sp_same by exact Epp. specialize (IH fuel ltac:(simpl in Hf; lia)). rewrite IH.
      destruct l as [|x l]; [inversion Hp|]. change (last (k :: x :: l) k) with (last (x :: l) k). f_equal. f_equal. apply last_indep. discriminate.
  Qed.

  (** ** the invariant *)
  Definition inb (k : K) (l : list K) : bool := existsb (eqb k) l.
  Lemma inb_spec k l : reflect (In k l) (inb k l).
  Proof.
    apply iff_reflect. unfold inb. rewrite existsb_exists. split.
    - intros H. exists k. split; [exact H|apply eqb_refl].
    - intros (x & Hx & E). destruct (ES k x); [subst; exact Hx|discriminate].
  Qed.
  Lemma inb_cons z a m : inb z (a :: m) = eqb z a || inb z m. Proof. reflexivity. Qed.
  Definition rt (P : K -> list K) (k : K) : K := last (P k) k.
  Definition cnt (P : K -> list K) (ks : list K) (z : K) : Z := len (filter (fun x => inb z (P x)) ks).
  Record inv (t : dsf) (P : K -> list K) : Prop :=
    { i_nd : NoDup (map fst t);
      i_pth : forall k, In k (map fst t) -> pth (par t) k (P k);
      i_sz : forall k, In k (map fst t) -> siz t k = Some (cnt P (map fst t) k) }.

  Lemma find_root_ok t P k fuel : inv t P -> In k (map fst t) -> (length (P k) <= fuel)%nat -> find_root_fuel eqb fuel t k = Ret (rt P k, t).
  Proof.
    intros I H Hf. unfold find_root_fuel. destruct (dget_some t k H) as [v ->]. apply find_loop_ok; [apply (i_pth _ _ I), H|exact Hf].
  Qed.
  Lemma find_root_ok' t P k : inv t P -> In k (map fst t) -> find_root eqb t k = Ret (rt P k, t).
  Proof. intros I H. apply find_root_ok; auto. pose proof (pth_len _ _ _ (i_pth _ _ I k H)). lia. Qed.
  Lemma find_root_err t k : ~ In k (map fst t) -> find_root eqb t k = Raise KeyError.
  Proof. intros H. unfold find_root, find_root_fuel. apply dget_none in H. rewrite H. reflexivity. Qed.

  Lemma rt_root t P k : inv t P -> In k (map fst t) -> par t (rt P k) = Some (rt P k) /\ In (rt P k) (P k) /\ In (rt P k) (map fst t).
  Proof.
    intros I H. destruct (pth_last _ _ _ k (i_pth _ _ I k H)) as [A B]. split; [exact A|]. split; [exact B|]. eapply pth_dom; [apply (i_pth _ _ I k H)|exact B].
  Qed.
  Lemma in_path_root t P u z : inv t P -> In u (map fst t) -> par t z = Some z -> inb z (P u) = eqb (rt P u) z.
  Proof.
    intros I H E. destruct (inb_spec z (P u)) as [Hin|Hin].
    - unfold rt. rewrite (pth_root_last _ _ _ z u (i_pth _ _ I u H) Hin E). symmetry. apply eqb_refl.
    - destruct (ES (rt P u) z) as [<-|]; [|reflexivity]. destruct (rt_root t P u I H) as (_ & B & _). contradiction.
  Qed.
  Lemma rt_self t P r : inv t P -> In r (map fst t) -> par t r = Some r -> P r = [r].
  Proof. intros I H E. apply (pth_det (par t) r); [apply (i_pth _ _ I), H|constructor; exact E]. Qed.

  Lemma inv_empty : inv [] (fun k => [k]).
  Proof. split; simpl; [constructor|intros k []|intros k []]. Qed.

  Lemma make_set_ok t P k : inv t P -> ~ In k (map fst t) ->
    let P' := fun x => if eqb x k then [k] else P x in
    inv (make_set eqb t k) P' /\ map fst (make_set eqb t k) = map fst t ++ [k].
  Proof.
    intros I H P'. apply dget_none in H as Hn. unfold make_set. rewrite Hn. rewrite dset_new by exact H. rewrite map_app. simpl. split; [|reflexivity].
    assert (Hk : forall u, In u (map fst t) -> eqb u k = false) by (intros u Hu; destruct (ES u k) as [->|]; [contradiction|reflexivity]).
    assert (G : forall u, In u (map fst t) -> dget (t ++ [(k, (k, 1))]) u = dget t u).
    { intros u Hu. rewrite <- dset_new by exact H. rewrite dget_dset, Hk by exact Hu. reflexivity. }
    assert (Gk : dget (t ++ [(k, (k, 1))]) k = Some (k, 1)) by (rewrite <- dset_new by exact H; rewrite dget_dset, eqb_refl; reflexivity).
    assert (HPk : forall u, In u (map fst t) -> inb k (P u) = false).
    { intros u Hu. destruct (inb_spec k (P u)) as [Hin|]; [|reflexivity]. exfalso. apply H. eapply pth_dom; [apply (i_pth _ _ I), Hu|exact Hin]. }
    split; rewrite ?map_app; simpl.
    - pose proof (i_nd _ _ I) as N. revert N H. clear. induction (map fst t) as [|a l IH]; intros N H; simpl; [repeat constructor; intros []|].
      inversion N; subst. simpl in H. constructor; [rewrite in_app_iff; simpl; intuition|]. apply IH; tauto.
    - intros u Hu. apply in_app_iff in Hu. destruct Hu as [Hu|[<- | []]].
      + unfold P'. rewrite Hk by exact Hu. eapply pth_ext; [apply (i_pth _ _ I), Hu|]. intros z Hz. unfold DsfModel.par. rewrite G; [reflexivity|].
        eapply pth_dom; [apply (i_pth _ _ I), Hu|exact Hz].
      + unfold P'. rewrite eqb_refl. constructor. unfold DsfModel.par. rewrite Gk. reflexivity.
    - intros u Hu. unfold cnt. rewrite filter_app. simpl. rewrite (filter_ext_in' _ (fun x => inb u (P x)) (map fst t)).
      2: { intros x Hx. unfold P'. rewrite Hk by exact Hx. reflexivity. }
      unfold P' at 1. rewrite eqb_refl. simpl.
      apply in_app_iff in Hu. destruct Hu as [Hu|[<- | []]].
      + rewrite Hk by exact Hu. simpl. rewrite app_nil_r. unfold DsfModel.siz. rewrite G by exact Hu. apply (i_sz _ _ I), Hu.
      + rewrite eqb_refl. simpl. unfold DsfModel.siz. rewrite Gk. simpl. f_equal.
        rewrite (filter_ext_in' _ (fun _ => false) (map fst t)) by (intros; apply HPk; assumption).
        replace (filter (fun _ : K => false) (map fst t)) with (@nil K); [reflexivity|]. clear. induction (map fst t); simpl; auto.
  Qed.

  (** attaching root y below root x *)
  Definition attach_P (P : K -> list K) (x y : K) : K -> list K := fun u => if eqb (rt P u) y then P u ++ [x] else P u.
  Lemma pth_attach f g k l x y : pth f k l -> f y = Some y -> last l k = y -> x <> y -> f x = Some x ->
    (forall z, g z = if eqb z y then Some x else f z) -> pth g k (l ++ [x]).
  Proof.
    intros H Ey El Hxy Ex Hg. assert (Gx : g x = Some x) by (rewrite Hg; destruct (ES x y); [contradiction|exact Ex]).
    revert El. induction H as [k E|k p l E Hn Hp IH]; intros El.
    - simpl in El. subst k. simpl. apply (p_step g y x [x]); [rewrite Hg, eqb_refl; reflexivity|exact Hxy|]. constructor. exact Gx.
    - simpl. apply (p_step g k p); [|exact Hn|].
      + rewrite Hg. destruct (ES k y) as [->|]; [congruence|exact E].
      + apply IH. destruct l as [|a l]; [inversion Hp|]. change (last (k :: a :: l) k) with (last (a :: l) k) in El.
        rewrite <- El. apply last_indep. discriminate.
  Qed.
  Lemma attach_ok t P x y sx sy : inv t P -> In x (map fst t) -> In y (map fst t) -> x <> y -> par t x = Some x -> par t y = Some y ->
    siz t x = Some sx -> siz t y = Some sy ->
    let t' := set_size eqb (set_parent eqb t y x) x (sx + sy) in
    inv t' (attach_P P x y) /\ map fst t' = map fst t.
  Proof.
    intros I Hx Hy Hxy Ex Ey Sx Sy t'. assert (Hkeys : map fst t' = map fst t) by (unfold t'; rewrite ss_keys, sp_keys; reflexivity).
    assert (Hpar : forall z, par t' z = if eqb z y then Some x else par t z) by (intros z; unfold t'; rewrite ss_par, sp_par by exact Hy; reflexivity).
    assert (Hsiz : forall z, siz t' z = if eqb z x then Some (sx + sy) else siz t z).
    { intros z. unfold t'. rewrite ss_siz by (rewrite sp_keys; exact Hx). rewrite sp_siz. reflexivity. }
    split; [|exact Hkeys]. split; rewrite ?Hkeys.
    - apply (i_nd _ _ I).
    - intros u Hu. unfold attach_P. destruct (ES (rt P u) y) as [Eu|Eu].
      + eapply pth_attach; eauto. apply (i_pth _ _ I), Hu.
      + eapply pth_ext; [apply (i_pth _ _ I), Hu|]. intros z Hz. rewrite Hpar. destruct (ES z y) as [->|]; [|reflexivity].
        exfalso. apply Eu. unfold rt. apply (pth_root_last _ _ _ y u (i_pth _ _ I u Hu) Hz Ey).
    - intros u Hu. rewrite Hsiz. destruct (ES u x) as [->|Hux].
      + f_equal. rewrite (i_sz _ _ I x Hx) in Sx. rewrite (i_sz _ _ I y Hy) in Sy. injection Sx as <-. injection Sy as <-. unfold cnt.
        symmetry. apply filter_len_add.
        * intros w Hw. unfold attach_P. rewrite (in_path_root t P w y I Hw Ey). destruct (ES (rt P w) y) as [Ew|Ew].
          -- rewrite orb_true_r. unfold inb. rewrite existsb_app. simpl. rewrite eqb_refl. rewrite orb_true_r. reflexivity.
          -- rewrite orb_false_r. reflexivity.
        * intros w Hw. rewrite (in_path_root t P w x I Hw Ex), (in_path_root t P w y I Hw Ey). destruct (ES (rt P w) x) as [E|]; [|discriminate].
          intros _. rewrite E. destruct (ES x y); [contradiction|reflexivity].
      + rewrite (i_sz _ _ I u Hu). f_equal. unfold cnt. f_equal. apply filter_ext_in'. intros w Hw. unfold attach_P.
        destruct (ES (rt P w) y) as [Ew|Ew]; [|reflexivity]. unfold inb. rewrite existsb_app. simpl.
        destruct (ES u x); [contradiction|]. rewrite !orb_false_r. reflexivity.
  Qed.
  Lemma attach_rt t P x y u : inv t P -> In u (map fst t) -> rt (attach_P P x y) u = if eqb (rt P u) y then x else rt P u.
  Proof.
    intros I Hu. unfold rt at 1, attach_P. destruct (eqb (rt P u) y); [apply last_last|reflexivity].
  Qed.

  Lemma union_ok t P a b : inv t P -> In a (map fst t) -> In b (map fst t) ->
    exists t' P', dsf_union eqb t a b = Ret t' /\ inv t' P' /\ map fst t' = map fst t /\
      ((rt P a = rt P b /\ P' = P) \/
       exists x y, x <> y /\ par t x = Some x /\ par t y = Some y /\ In x (map fst t) /\ In y (map fst t) /\ cnt P (map fst t) y <= cnt P (map fst t) x /\
         ((x = rt P a /\ y = rt P b) \/ (x = rt P b /\ y = rt P a)) /\ P' = attach_P P x y).
  Proof.
    intros I Ha Hb. unfold dsf_union. rewrite (find_root_ok' t P a I Ha). cbn [bind]. rewrite (find_root_ok' t P b I Hb). cbn [bind].
    destruct (rt_root t P a I Ha) as (Ea & _ & Da). destruct (rt_root t P b I Hb) as (Eb & _ & Db).
    destruct (ES (rt P a) (rt P b)) as [E|E]; simpl negb; cbv iota.
    - exists t, P. repeat split; try apply I; auto.
    - unfold get_size. pose proof (i_sz _ _ I _ Da) as Sa. pose proof (i_sz _ _ I _ Db) as Sb. rewrite Sa, Sb. cbn [bind].
      destruct (Z.ltb_spec (cnt P (map fst t) (rt P a)) (cnt P (map fst t) (rt P b))) as [Hlt|Hlt]; rewrite !sp_siz, ?Sa, ?Sb; cbn [bind].
      + destruct (attach_ok t P (rt P b) (rt P a) _ _ I Db Da (not_eq_sym E) Eb Ea Sb Sa) as [I' K'].
        eexists _, _. split; [reflexivity|]. split; [exact I'|]. split; [exact K'|]. right. exists (rt P b), (rt P a).
        repeat split; auto. lia.
      + destruct (attach_ok t P (rt P a) (rt P b) _ _ I Da Db E Ea Eb Sa Sb) as [I' K'].
        eexists _, _. split; [reflexivity|]. split; [exact I'|]. split; [exact K'|]. right. exists (rt P a), (rt P b).
        repeat split; auto.
  Qed.
  Lemma union_err t a b P : inv t P -> ~ (In a (map fst t) /\ In b (map fst t)) -> dsf_union eqb t a b = Raise KeyError.
  Proof.
    intros I H. unfold dsf_union. destruct (in_dec Kdec a (map fst t)) as [Ha|Ha].
    - rewrite (find_root_ok' t P a I Ha). cbn [bind]. rewrite find_root_err by tauto. reflexivity.
    - rewrite find_root_err by exact Ha. reflexivity.
  Qed.

  (** ** make_root *)
  Fixpoint upto (k : K) (l : list K) : list K :=
    match l with [] => [] | x :: l' => if eqb x k then [x] else x :: upto k l' end.
  Lemma upto_app k a b : ~ In k a -> upto k (a ++ k :: b) = a ++ [k].
  Proof.
    induction a as [|x a IH]; intros H; simpl; [rewrite eqb_refl; reflexivity|]. simpl in H. destruct (ES x k); [tauto|]. rewrite IH by tauto. reflexivity.
  Qed.
  Lemma pth_upto f g k r u l : pth f u l -> In k l -> f r = Some r -> r <> k ->
    (forall z, g z = if eqb z k then Some k else if eqb z r then Some k else f z) -> pth g u (upto k l).
  Proof.
    intros H Hk Er Hrk Hg. revert Hk. induction H as [u E|u p l E Hn Hp IH]; intros Hk; simpl.
    - destruct Hk as [<- | []]. rewrite eqb_refl. constructor. rewrite Hg, eqb_refl. reflexivity.
    - destruct (ES u k) as [->|Huk]; [constructor; rewrite Hg, eqb_refl; reflexivity|].
      destruct Hk as [->|Hk]; [contradiction|]. apply (p_step g u p); [|exact Hn|apply IH; exact Hk].
      rewrite Hg. destruct (ES u k); [contradiction|]. destruct (ES u r) as [->|]; [congruence|exact E].
  Qed.
  Lemma pth_reroot f g k r u l : pth f u l -> ~ In k l -> last l u = r -> f r = Some r -> r <> k ->
    (forall z, g z = if eqb z k then Some k else if eqb z r then Some k else f z) -> pth g u (l ++ [k]).
  Proof.
    intros H Hk El Er Hrk Hg. assert (Gk : g k = Some k) by (rewrite Hg, eqb_refl; reflexivity).
    revert Hk El. induction H as [u E|u p l E Hn Hp IH]; intros Hk El; simpl.
    - simpl in El. subst u. apply (p_step g r k [k]); [|congruence|constructor; exact Gk].
      rewrite Hg. destruct (ES r k); [contradiction|]. rewrite eqb_refl. reflexivity.
    - simpl in Hk. apply (p_step g u p); [|exact Hn|apply IH; [tauto|]].
      + rewrite Hg. destruct (ES u k); [tauto|]. destruct (ES u r) as [->|]; [congruence|exact E].
      + destruct l as [|a l]; [inversion Hp|]. change (last (u :: a :: l) u) with (last (a :: l) u) in El. rewrite <- El. apply last_indep. discriminate.
  Qed.

  (** the loop of make_root: every ancestor of [key] but the root is made smaller by [ks] *)
  Lemma make_root_loop key ks : forall l t cp fuel, pth (par t) cp l -> ~ In key l -> siz t key = Some ks ->
    (forall z, In z l -> exists s, siz t z = Some s) -> (length l <= fuel)%nat ->
    exists t', while_loop fuel (fun '(cp, t) =>
           pp <- get_parent eqb t cp ;;
           if eqb pp cp then Ret (Break (cp, t))
           else s <- get_size eqb t cp ;; ks <- get_size eqb t key ;; Ret (Next (pp, set_size eqb t cp (s - ks)))) (cp, t) = Ret (last l cp, t') /\
      map fst t' = map fst t /\ (forall z, par t' z = par t z) /\
      (forall z, siz t' z = if inb z (removelast l) then option_map (fun s => s - ks) (siz t z) else siz t z).
  Proof.
    induction l as [|a l IH]; intros t cp fuel Hp Hk Sk Hs Hf; [inversion Hp|].
    destruct fuel as [|fuel]; [simpl in Hf; lia|]. inversion Hp as [k E|k p l' E Hn Hp']; subst; cbn [while_loop]; rewrite (gp_ok _ _ _ E); cbn [bind].
    - rewrite eqb_refl. exists t. repeat split.
    - destruct (ES p a); [contradiction|]. destruct (Hs a ltac:(left; reflexivity)) as [s Ss]. rewrite (gs_ok _ _ _ Ss). cbn [bind]. rewrite (gs_ok _ _ _ Sk). cbn [bind].
      assert (Ha : In a (map fst t)) by (eapply par_in; eauto).
      assert (Hka : key <> a) by (intros ->; apply Hk; left; reflexivity).
      assert (Hal : ~ In a l) by (pose proof (pth_nodup _ _ _ Hp) as N; inversion N; assumption).
      destruct (IH (set_size eqb t a (s - ks)) p fuel) as (t' & Et & K' & P' & S').
      + eapply pth_ext; [exact Hp'|]. intros; apply ss_par.
      + intros Hin. apply Hk. right. exact Hin.
      + rewrite ss_siz by exact Ha. destruct (ES key a); [contradiction|exact Sk].
      + intros z Hz. rewrite ss_siz by exact Ha. destruct (ES z a); [eauto|]. apply Hs. right. exact Hz.
      + simpl in Hf. lia.
      + exists t'. rewrite Et. destruct l as [|b l]; [inversion Hp'|]. split; [f_equal; f_equal; change (last (a :: b :: l) a) with (last (b :: l) a); apply last_indep; discriminate|].
        split; [rewrite K'; apply ss_keys|]. split; [intros z; rewrite P'; apply ss_par|].
        intros z. rewrite S', ss_siz by exact Ha. change (removelast (a :: b :: l)) with (a :: removelast (b :: l)). rewrite (inb_cons z a).
        destruct (ES z a) as [->|]; cbn [orb]; [|reflexivity]. rewrite Ss. cbn [option_map].
        destruct (inb_spec a (removelast (b :: l))) as [Hin|Hin]; [|reflexivity]. exfalso. apply Hal.
        clear -Hin. revert Hin. generalize (b :: l). intros l0. induction l0 as [|x l0 IH]; simpl; [tauto|]. destruct l0; [tauto|]. intros [->|H]; [left; reflexivity|right; apply IH; exact H].
  Qed.

  Definition reroot_P (P : K -> list K) (key r : K) : K -> list K :=
    fun u => if inb key (P u) then upto key (P u) else if eqb (rt P u) r then P u ++ [key] else P u.

  Lemma path_split t P u key : inv t P -> In u (map fst t) -> In key (P u) -> exists a, P u = a ++ P key /\ ~ In key a.
  Proof.
    intros I Hu Hk. pose proof (i_pth _ _ I u Hu) as Hp. destruct (pth_suffix _ _ _ Hp key Hk) as (a & b & E & Hb & _).
    assert (Hkd : In key (map fst t)) by (eapply pth_dom; [exact Hp|exact Hk]).
    exists a. rewrite E. split; [f_equal; apply (pth_det _ _ _ Hb), (i_pth _ _ I), Hkd|].
    pose proof (pth_nodup _ _ _ Hp) as N. rewrite E in N. intros Ha. pose proof (pth_hd _ _ _ Hb) as Hkb.
    clear -N Ha Hkb. induction a as [|x a IH]; [destruct Ha|]. simpl in N. inversion N; subst. destruct Ha as [->|Ha]; [apply H1, in_or_app; right; exact Hkb|apply IH; assumption].
  Qed.
  Lemma path_hd t P u : inv t P -> In u (map fst t) -> exists b, P u = u :: b.
  Proof. intros I Hu. pose proof (i_pth _ _ I u Hu) as Hp. inversion Hp; eauto. Qed.
  Lemma inb_app z (a b : list K) : inb z (a ++ b) = inb z a || inb z b.
  Proof. unfold inb. apply existsb_app. Qed.

  Lemma make_root_ok t P key : inv t P -> In key (map fst t) ->
    exists t' P', make_root eqb t key = Ret t' /\ inv t' P' /\ map fst t' = map fst t /\
      (forall u, In u (map fst t) -> rt P' u = if eqb (rt P u) (rt P key) then key else rt P u).
  Proof.
    intros I Hk. unfold make_root. destruct (dget_some t key Hk) as [[p ks] Eg]. rewrite Eg.
    assert (Ep : par t key = Some p) by (unfold DsfModel.par; rewrite Eg; reflexivity).
    assert (Eks : siz t key = Some ks) by (unfold DsfModel.siz; rewrite Eg; reflexivity).
    destruct (ES p key) as [->|Hpk].
    { exists t, P. split; [reflexivity|]. split; [exact I|]. split; [reflexivity|]. intros u Hu. pose proof (rt_self t P key I Hk Ep) as E. unfold rt at 3. rewrite E. simpl.
      destruct (ES (rt P u) key) as [->|]; reflexivity. }
    pose proof (i_pth _ _ I key Hk) as Hpth.
    assert (exists l, P key = key :: l /\ pth (par t) p l) as (l & EP & Hp).
    { remember (P key) as Pk eqn:EPk. destruct Hpth as [k E|k p' l E Hn Hp]; [congruence|]. exists l. split; [reflexivity|]. congruence. }
    assert (Hkl : ~ In key l) by (pose proof (pth_nodup _ _ _ Hpth) as N; rewrite EP in N; inversion N; assumption).
    assert (Hdom : forall z, In z l -> In z (map fst t)) by (intros z Hz; eapply pth_dom; eauto).
    destruct (make_root_loop key ks l t p (S (length t)) Hp Hkl Eks) as (t1 & Et & K1 & P1 & S1).
    { intros z Hz. rewrite (i_sz _ _ I z (Hdom z Hz)). eauto. }
    { pose proof (pth_len _ _ _ Hp). lia. }
    rewrite Et. cbn [bind]. set (r := last l p) in *.
    destruct (pth_last _ _ _ p Hp) as [Er Hrl]. fold r in Er, Hrl.
    assert (Hrd : In r (map fst t)) by (apply Hdom, Hrl).
    assert (Hrk : r <> key) by (intros E'; rewrite E' in Hrl; contradiction).
    assert (Ertk : rt P key = r). { unfold rt. rewrite EP. destruct l as [|a l]; [inversion Hp|]. change (last (key :: a :: l) key) with (last (a :: l) key). apply last_indep. discriminate. }
    assert (Hnd : NoDup l) by (eapply pth_nodup; eauto).
    assert (El : l = removelast l ++ [r]) by (apply app_removelast_last; intros ->; inversion Hp).
    assert (Hr1 : inb r (removelast l) = false).
    { destruct (inb_spec r (removelast l)) as [Hin|]; [|reflexivity]. exfalso. rewrite El in Hnd. clear -Hnd Hin.
      induction (removelast l) as [|x m IH]; [destruct Hin|]. simpl in Hnd. inversion Hnd; subst. destruct Hin as [->|Hin]; [apply H1, in_or_app; right; left; reflexivity|apply IH; assumption]. }
    assert (Hk1 : inb key (removelast l) = false).
    { destruct (inb_spec key (removelast l)) as [Hin|]; [|reflexivity]. exfalso. apply Hkl. rewrite El. apply in_or_app. left. exact Hin. }
    assert (Sr : siz t1 r = Some (cnt P (map fst t) r)) by (rewrite S1, Hr1; apply (i_sz _ _ I), Hrd).
    assert (Sk1 : siz t1 key = Some ks) by (rewrite S1, Hk1; exact Eks).
    rewrite (gs_ok _ _ _ Sr). cbn [bind]. rewrite (gs_ok _ _ _ Sk1). cbn [bind].
    set (t' := set_parent eqb _ key key).
    assert (Hkeys : map fst t' = map fst t) by (unfold t'; rewrite sp_keys, ss_keys, sp_keys, ss_keys; exact K1).
    assert (Hpar : forall z, par t' z = if eqb z key then Some key else if eqb z r then Some key else par t z).
    { intros z. unfold t'. rewrite sp_par by (rewrite ss_keys, sp_keys, ss_keys, K1; exact Hk). destruct (eqb z key); [reflexivity|].
      rewrite ss_par. rewrite sp_par by (rewrite ss_keys, K1; exact Hrd). destruct (eqb z r); [reflexivity|]. rewrite ss_par. apply P1. }
    assert (Hsiz : forall z, siz t' z = if eqb z key then Some (cnt P (map fst t) r) else if inb z l then option_map (fun s => s - ks) (siz t z) else siz t z).
    { intros z. unfold t'. rewrite sp_siz. rewrite ss_siz by (rewrite sp_keys, ss_keys, K1; exact Hk). destruct (ES z key); [reflexivity|].
      rewrite sp_siz. rewrite ss_siz by (rewrite K1; exact Hrd). rewrite El, inb_app. unfold inb at 2. simpl. rewrite orb_false_r.
      destruct (ES z r) as [->|]; [rewrite orb_true_r, (i_sz _ _ I r Hrd); reflexivity|]. rewrite orb_false_r, S1. reflexivity. }
    (* facts about paths *)
    assert (F1 : forall u, In u (map fst t) -> In key (P u) -> rt P u = r).
    { intros u Hu Hin. destruct (path_split t P u key I Hu Hin) as (a & Ea & _). unfold rt. rewrite Ea, EP.
      rewrite El. change (key :: removelast l ++ [r]) with ((key :: removelast l) ++ [r]). rewrite app_assoc. apply last_last. }
    exists t', (reroot_P P key r). split; [reflexivity|]. split; [|split; [exact Hkeys|]].
    - split; rewrite ?Hkeys.
      + apply (i_nd _ _ I).
      + intros u Hu. unfold reroot_P. destruct (inb_spec key (P u)) as [Hin|Hin].
        * eapply pth_upto; eauto. apply (i_pth _ _ I), Hu.
        * destruct (ES (rt P u) r) as [Eu|Eu].
          -- eapply pth_reroot; eauto. apply (i_pth _ _ I), Hu.
          -- eapply pth_ext; [apply (i_pth _ _ I), Hu|]. intros z Hz. rewrite Hpar. destruct (ES z key) as [->|]; [contradiction|].
             destruct (ES z r) as [->|]; [|reflexivity]. exfalso. apply Eu. unfold rt. apply (pth_root_last _ _ _ r u (i_pth _ _ I u Hu) Hz Er).
      + intros z Hz. rewrite Hsiz. destruct (ES z key) as [->|Hzk].
        * f_equal. unfold cnt. f_equal. apply filter_ext_in'. intros u Hu. rewrite (in_path_root t P u r I Hu Er). unfold reroot_P.
          destruct (inb_spec key (P u)) as [Hin|Hin].
          -- rewrite (F1 u Hu Hin), eqb_refl. destruct (path_split t P u key I Hu Hin) as (a & Ea & Na). rewrite Ea, EP. rewrite upto_app by exact Na.
             rewrite inb_app. unfold inb at 2. simpl. rewrite eqb_refl, orb_true_r. reflexivity.
          -- destruct (ES (rt P u) r); [rewrite inb_app; unfold inb at 2; simpl; rewrite eqb_refl, orb_true_r; reflexivity|].
             destruct (inb_spec key (P u)); [contradiction|reflexivity].
        * assert (Gn : forall u, In u (map fst t) -> ~ In key (P u) -> inb z (reroot_P P key r u) = inb z (P u)).
          { intros u Hu Hin. unfold reroot_P. destruct (inb_spec key (P u)); [contradiction|]. destruct (eqb (rt P u) r); [|reflexivity].
            rewrite inb_app. unfold inb at 2. simpl. destruct (ES z key); [contradiction|]. rewrite !orb_false_r. reflexivity. }
          destruct (inb_spec z l) as [Hzl|Hzl].
          -- rewrite (i_sz _ _ I z Hz). simpl. f_equal. rewrite (i_sz _ _ I key Hk) in Eks. injection Eks as <-. unfold cnt.
             rewrite (filter_len_add (fun x => inb z (reroot_P P key r x)) (fun x => inb key (P x)) (fun x => inb z (P x)) (map fst t)).
             ++ lia.
             ++ intros u Hu. destruct (inb_spec key (P u)) as [Hin|Hin]; [|rewrite (Gn u Hu Hin), orb_false_r; reflexivity].
                rewrite orb_true_r. destruct (path_split t P u key I Hu Hin) as (a & Ea & Na). rewrite Ea, EP, inb_app.
                destruct (inb_spec z (key :: l)) as [|Hc]; [apply orb_true_r|]. exfalso. apply Hc. right. exact Hzl.
             ++ intros u Hu. destruct (inb_spec key (P u)) as [Hin|Hin]; [|reflexivity]. intros Hc. exfalso. revert Hc.
                unfold reroot_P. destruct (inb_spec key (P u)); [|contradiction]. destruct (path_split t P u key I Hu Hin) as (a & Ea & Na).
                rewrite Ea, EP, upto_app, inb_app by exact Na. unfold inb at 2. simpl. destruct (ES z key); [contradiction|]. rewrite !orb_false_r.
                destruct (inb_spec z a) as [Hza|]; [|discriminate]. intros _. pose proof (pth_nodup _ _ _ (i_pth _ _ I u Hu)) as N. rewrite Ea, EP in N.
                clear -N Hza Hzl. induction a as [|x a IH]; [destruct Hza|]. simpl in N. inversion N; subst. destruct Hza as [->|Hza]; [apply H1, in_or_app; right; right; exact Hzl|apply IH; assumption].
          -- rewrite (i_sz _ _ I z Hz). f_equal. unfold cnt. f_equal. apply filter_ext_in'. intros u Hu.
             destruct (inb_spec key (P u)) as [Hin|Hin]; [|symmetry; apply Gn; assumption].
             unfold reroot_P. destruct (inb_spec key (P u)); [|contradiction]. destruct (path_split t P u key I Hu Hin) as (a & Ea & Na).
             rewrite Ea, EP, upto_app, !inb_app by exact Na. f_equal. unfold inb. simpl. destruct (ES z key); [contradiction|]. simpl.
             fold (inb z l). destruct (inb_spec z l); [contradiction|reflexivity].
    - intros u Hu. rewrite Ertk. unfold rt at 1, reroot_P. destruct (inb_spec key (P u)) as [Hin|Hin].
      + rewrite (F1 u Hu Hin), eqb_refl. destruct (path_split t P u key I Hu Hin) as (a & Ea & Na). rewrite Ea, EP, upto_app by exact Na. apply last_last.
      + destruct (eqb (rt P u) r); [apply last_last|reflexivity].
  Qed.
  Lemma make_root_err t key : ~ In key (map fst t) -> make_root eqb t key = Raise KeyError.
  Proof. intros H. apply dget_none in H. unfold make_root. rewrite H. reflexivity. Qed.
End D.
