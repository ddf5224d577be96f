(** Proofs for tarjan's strongly connected components (C83). *)
From Coq Require Import Strings.String Strings.Ascii Sorting.Sorted.
From Verif Require Import Base DsfModel GraphModel GraphSpec GraphDict PathModel SccModel SccSpec.
Import List.

Section R.
  Context (G : dg).
  Lemma reach_refl u : reachable G u u.
  Proof. exists O. constructor. Qed.
  Lemma reach_snoc u v w : reachable G u v -> is_edge G v w -> reachable G u w.
  Proof. intros [n H] E. exists (S n). econstructor; eassumption. Qed.
  Lemma reach_trans u v w : reachable G u v -> reachable G v w -> reachable G u w.
  Proof. intros H [n K]. induction K; [exact H|]. eapply reach_snoc; eauto. Qed.
  Lemma reach_edge u v : is_edge G u v -> reachable G u v.
  Proof. intros H. eapply reach_snoc; [apply reach_refl|exact H]. Qed.
  (** a walk out of a set crosses its border *)
  Lemma reach_cross (P : string -> Prop) u v : (forall x, {P x} + {~ P x}) -> reachable G u v -> P u -> ~ P v -> exists a b, P a /\ ~ P b /\ is_edge G a b /\ reachable G b v.
  Proof.
    intros D [n K]. revert n K. intros n K Pu Pv.
    induction K as [|n x y K IH E]; [contradiction|]. destruct (D x) as [Px|Px].
    - exists x, y. auto using reach_refl.
    - destruct (IH Px) as (a & b & A & B & C & D'). exists a, b. repeat (split; auto). eapply reach_snoc; eauto.
  Qed.
End R.

Definition ix (d : list (string * Z)) (x : string) : Z := match sdget d x with Some z => z | None => -1 end.
Definition has {V} (d : list (string * V)) (x : string) : Prop := In x (map fst d).
Lemma has_set {V} (d : list (string * V)) k v x : has d x -> has (sdset d k v) x.
Proof. unfold has. rewrite sset_keys. destruct (mem k (map fst d)); intros; [assumption|apply in_or_app; auto]. Qed.
Lemma dgetE_ix d x : has d x -> dgetE d x = Ret (ix d x).
Proof. intros H. unfold dgetE, ix. destruct (sget_some d x H) as [v ->]. reflexivity. Qed.
Lemma dgetE_on d x : has d x -> dgetE d x = Ret (is_visited d x).
Proof. intros H. unfold dgetE, is_visited. destruct (sget_some d x H) as [v ->]. reflexivity. Qed.
Lemma ix_set d k v x : ix (sdset d k v) x = if String.eqb x k then v else ix d x.
Proof. unfold ix. rewrite sget_set. destruct (SE x k); reflexivity. Qed.
Lemma on_set d k v x : is_visited (sdset d k v) x = if String.eqb x k then v else is_visited d x.
Proof. unfold is_visited. rewrite sget_set. destruct (SE x k); reflexivity. Qed.

Lemma tj_pop_spec new : forall on comp u S0, ~ In u new -> NoDup (new ++ [u]) -> (forall x, In x comp -> ~ In x (new ++ [u])) ->
  exists on', tj_pop (new ++ u :: S0) on comp u = (S0, on', comp ++ new ++ [u]) /\ (forall x, is_visited on' x = if mem x (new ++ [u]) then false else is_visited on x) /\ (forall x, has on x -> has on' x).
Proof.
  induction new as [|w new IH]; intros on comp u S0 Hu HN HC; cbn [app tj_pop].
  - rewrite String.eqb_refl. unfold set_add. destruct (mem_spec u comp) as [X|X]; [exfalso; apply (HC u X); left; reflexivity|].
    eexists. split; [reflexivity|]. split; [|intros x; apply has_set]. intros x. rewrite on_set. unfold mem. cbn. destruct (SE x u); reflexivity.
  - destruct (SE w u) as [->|Hw]; [exfalso; apply Hu; left; reflexivity|]. inversion HN as [|? ? N1 N2]; subst.
    unfold set_add at 1. destruct (mem_spec w comp) as [X|X]; [exfalso; apply (HC w X); left; reflexivity|].
    destruct (IH (sdset on w false) (comp ++ [w]) u S0) as (on' & E1 & E2 & E3).
    + intros H. apply Hu. right. exact H.
    + exact N2.
    + intros x Hx Hx'. apply in_app_or in Hx as [Hx|[<-|[]]]; [apply (HC x Hx); right; exact Hx'|contradiction].
    + exists on'. rewrite E1, <- app_assoc. split; [reflexivity|]. split.
      * intros x. rewrite E2, on_set. cbn [mem existsb app]. fold (mem x (new ++ [u])). destruct (SE x w) as [->|]; cbn; [destruct (mem w (new ++ [u])); reflexivity|reflexivity].
      * intros x Hx. apply E3. apply has_set. exact Hx.
Qed.

Section T.
  Context (g : gview) (G : dg) (HG : represents g G).
  Notation V := (fst G). Notation E := (is_edge G). Notation R := (reachable G).
  Notation ind st x := (ix (t_ind st) x). Notation low st x := (ix (t_low st) x). Notation on st x := (is_visited (t_on st) x).
  Definition done st : list string := concat (t_comps st).

  Lemma edge_V u v : E u v -> In u V /\ In v V.
  Proof. destruct HG as (_ & _ & _ & _ & H & _). apply H. Qed.
  Lemma reach_V u v : R u v -> In u V -> In v V.
  Proof. intros [n K] H. destruct K; [exact H|]. apply (edge_V _ _ H0). Qed.

  Definition scc (C : list string) : Prop := C <> [] /\ forall u, In u C -> forall v, In v C <-> mutual G u v.

  Record inv (st : tj) (P : list string) : Prop := {
    v_has : forall x, In x V -> has (t_ind st) x /\ has (t_low st) x /\ has (t_on st) x;
    v_stk : forall x, In x (t_stack st) -> In x V /\ 0 <= ind st x;
    v_sort : StronglySorted (fun a b => ind st b < ind st a) (t_stack st);
    v_on : forall x, In x V -> (on st x = true <-> In x (t_stack st));
    v_vis : forall x, In x V -> (ind st x <> -1 <-> In x (t_stack st) \/ In x (done st));
    v_dV : forall x, In x (done st) -> In x V;
    v_disj : forall x, In x (t_stack st) -> ~ In x (done st);
    v_nd : NoDup (done st);
    v_bnd : 0 <= t_index st /\ forall x, In x V -> -1 <= ind st x < t_index st;
    v_gray : forall p, In p P -> In p (t_stack st);
    v_down : forall p x, In p P -> In x (t_stack st) -> ind st p <= ind st x -> R p x;
    v_up : forall x, In x (t_stack st) -> exists p, In p P /\ ind st p <= ind st x /\ R x p;
    v_closed : forall x y, In x (done st) -> E x y -> In y (done st);
    v_scc : forall C, In C (t_comps st) -> scc C;
    v_black : forall x y, In x V -> ind st x <> -1 -> ~ In x P -> E x y -> ind st y <> -1;
    v_low : forall v, In v (t_stack st) -> exists w, In w (t_stack st) /\ ind st w = low st v /\ low st v <= ind st v /\ R v w }.

  Lemma done_reach st P x y : inv st P -> In x (done st) -> R x y -> In y (done st).
  Proof. intros I H [n K]. induction K; [exact H|]. eapply (v_closed _ _ I); eauto. Qed.

  (** after the call of _tarjan_dfs on [u] *)
  Record post (st st' : tj) (u : string) : Prop := {
    p_old : forall x, In x V -> ind st x <> -1 -> ind st' x = ind st x /\ low st' x = low st x;
    p_idx : t_index st <= t_index st';
    p_u : ind st' u <> -1;
    p_new : exists new, t_stack st' = new ++ t_stack st /\
      ((In u new /\ forall x y, In x new -> In y (t_stack st) -> E x y -> low st' u <= ind st y) \/ (~ In u (t_stack st') /\ new = [] /\ t_index st <= low st' u)) }.

  Definition white st : nat := length (filter (fun x => ind st x =? -1) V).
  Lemma filter_le {A} (f h : A -> bool) l : (forall x, In x l -> f x = true -> h x = true) -> (length (filter f l) <= length (filter h l))%nat.
  Proof.
    induction l as [|a l IH]; intros H; cbn; [lia|]. assert (X := IH (fun x Hx => H x (or_intror Hx))). specialize (H a (or_introl eq_refl)).
    destruct (f a); [rewrite H by reflexivity; cbn; lia|]. destruct (h a); cbn; lia.
  Qed.
  Lemma filter_lt {A} (f h : A -> bool) l a : (forall x, In x l -> f x = true -> h x = true) -> In a l -> f a = false -> h a = true -> (length (filter f l) < length (filter h l))%nat.
  Proof.
    induction l as [|b l IH]; intros H Ha Fa Ka; [destruct Ha|]. cbn. destruct Ha as [->|Ha].
    - rewrite Fa, Ka. cbn. assert (X := filter_le f h l (fun x Hx => H x (or_intror Hx))). lia.
    - specialize (IH (fun x Hx => H x (or_intror Hx)) Ha Fa Ka). specialize (H b (or_introl eq_refl)). destruct (f b); [rewrite H by reflexivity; cbn; lia|]. destruct (h b); cbn; lia.
  Qed.
  Lemma white_le st st' : (forall x, In x V -> ind st x <> -1 -> ind st' x <> -1) -> (white st' <= white st)%nat.
  Proof. intros H. apply filter_le. intros x Hx K. apply Z.eqb_eq in K. apply Z.eqb_eq. specialize (H x Hx). lia. Qed.

  (** lowering low[u] *)
  Lemma inv_low st P u z : inv st P -> In u (t_stack st) ->
    (exists w, In w (t_stack st) /\ ind st w = z /\ z <= ind st u /\ R u w) ->
    inv (mktj (t_index st) (t_stack st) (t_ind st) (sdset (t_low st) u z) (t_on st) (t_comps st)) P.
  Proof.
    intros I Hu Hz. destruct I. constructor; cbn [t_index t_stack t_ind t_low t_on t_comps]; unfold done; cbn [t_comps]; auto.
    - intros x Hx. destruct (v_has0 x Hx) as (A & B & C). auto using has_set.
    - intros v Hv. rewrite ix_set. destruct (SE v u) as [->|]; [exact Hz|]. apply v_low0. exact Hv.
  Qed.

  Definition entered st u : tj := mktj (t_index st + 1) (u :: t_stack st) (sdset (t_ind st) u (t_index st)) (sdset (t_low st) u (t_index st)) (sdset (t_on st) u true) (t_comps st).
  Lemma inv_entered st P u : inv st P -> In u V -> ind st u = -1 -> (forall p, In p P -> R p u) -> inv (entered st u) (u :: P).
  Proof.
    intros I Hu Hw HR. unfold entered.
    assert (NS : ~ In u (t_stack st)) by (intros X; apply (v_stk _ _ I) in X; lia).
    assert (ND : ~ In u (done st)) by (intros X; assert (Y := proj2 (v_vis _ _ I u Hu) (or_intror X)); lia).
    assert (IS : forall x, In x (t_stack st) -> x <> u) by (intros x Hx ->; contradiction).
    destruct (v_bnd _ _ I) as [B0 B1].
    constructor; cbn [t_index t_stack t_ind t_low t_on t_comps]; unfold done; cbn [t_comps]; fold (done st).
    - intros x Hx. destruct (v_has _ _ I x Hx) as (A & B & C). auto using has_set.
    - intros x [<-|Hx]; [split; [exact Hu|rewrite ix_set, String.eqb_refl; lia]|]. rewrite ix_set. destruct (SE x u); [split; [congruence|lia]|]. apply (v_stk _ _ I). exact Hx.
    - constructor.
      + clear HR. assert (S := v_sort _ _ I). assert (Q : forall x, In x (t_stack st) -> ind st x < t_index st) by (intros x Hx; apply B1; apply (v_stk _ _ I x Hx)).
        assert (M : forall l, (forall x, In x l -> In x (t_stack st)) -> StronglySorted (fun a b => ind st b < ind st a) l -> StronglySorted (fun a b => ix (sdset (t_ind st) u (t_index st)) b < ix (sdset (t_ind st) u (t_index st)) a) l).
        { induction l as [|a l IH]; intros HL HS; [constructor|]. inversion HS; subst. constructor; [apply IH; [intros x Hx; apply HL; right; exact Hx|assumption]|].
          rewrite Forall_forall in *. intros b Hb. rewrite !ix_set. destruct (SE b u) as [->|]; [exfalso; apply NS; apply HL; right; exact Hb|]. destruct (SE a u) as [->|]; [exfalso; apply NS; apply HL; left; reflexivity|]. auto. }
        apply M; auto.
      + apply Forall_forall. intros b Hb. rewrite !ix_set, String.eqb_refl. destruct (SE b u) as [->|]; [contradiction|]. apply B1. apply (v_stk _ _ I b Hb).
    - intros x Hx. rewrite on_set. cbn [In]. destruct (SE x u) as [->|Hn]; [split; auto|]. rewrite (v_on _ _ I x Hx). split; [auto|intros [?|?]; [congruence|assumption]].
    - intros x Hx. rewrite ix_set. cbn [In]. destruct (SE x u) as [->|Hn]; [split; [auto|lia]|]. rewrite (v_vis _ _ I x Hx). split; [tauto|intros [[?|?]|?]; [congruence|tauto|tauto]].
    - apply (v_dV _ _ I).
    - intros x [<-|Hx]; [exact ND|apply (v_disj _ _ I x Hx)].
    - apply (v_nd _ _ I).
    - split; [lia|]. intros x Hx. rewrite ix_set. specialize (B1 x Hx). destruct (SE x u); lia.
    - intros p [<-|Hp]; [left; reflexivity|right; apply (v_gray _ _ I p Hp)].
    - intros p x Hp Hx. rewrite !ix_set. destruct Hp as [<-|Hp].
      + rewrite String.eqb_refl. destruct (SE x u) as [->|Hn]; [intros; apply reach_refl|]. destruct Hx as [?|Hx]; [congruence|]. specialize (B1 x (proj1 (v_stk _ _ I x Hx))). lia.
      + destruct (SE x u) as [->|Hn]; [intros; apply HR; exact Hp|]. destruct Hx as [?|Hx]; [congruence|]. destruct (SE p u) as [->|]; [exfalso; apply NS; apply (v_gray _ _ I u Hp)|]. apply (v_down _ _ I p x Hp Hx).
    - intros x [<-|Hx].
      + exists u. split; [left; reflexivity|]. split; [lia|apply reach_refl].
      + destruct (v_up _ _ I x Hx) as (p & A & B & C). exists p. split; [right; exact A|]. split; [|exact C]. rewrite !ix_set.
        destruct (SE p u) as [->|]; [exfalso; apply NS; apply (v_gray _ _ I u A)|]. destruct (SE x u) as [->|]; [contradiction|exact B].
    - apply (v_closed _ _ I).
    - apply (v_scc _ _ I).
    - intros x y Hx. rewrite !ix_set. cbn [In]. destruct (SE x u) as [->|Hn]; [tauto|]. intros A B C. destruct (SE y u); [lia|]. apply (v_black _ _ I x y Hx A); [tauto|exact C].
    - intros v [<-|Hv].
      + exists u. rewrite !ix_set, String.eqb_refl. split; [left; reflexivity|]. split; [lia|]. split; [lia|apply reach_refl].
      + destruct (v_low _ _ I v Hv) as (w & A & B & C & D). exists w. rewrite !ix_set. destruct (SE w u) as [->|]; [contradiction|]. destruct (SE v u) as [->|]; [contradiction|]. split; [right; exact A|auto].
  Qed.

  Lemma sorted_nodup st P : inv st P -> NoDup (t_stack st).
  Proof.
    intros I. assert (S := v_sort _ _ I). induction S as [|a l S IH F]; constructor; [|exact IH]. intros X. rewrite Forall_forall in F. apply F in X. lia.
  Qed.
  Lemma sorted_app st l1 l2 : StronglySorted (fun a b => ind st b < ind st a) (l1 ++ l2) -> forall a b, In a l1 -> In b l2 -> ind st b < ind st a.
  Proof.
    induction l1 as [|c l1 IH]; intros HS a b Ha Hb; [destruct Ha|]. cbn in HS. inversion HS as [|? ? S F]; subst. destruct Ha as [->|Ha]; [|apply (IH S a b Ha Hb)].
    rewrite Forall_forall in F. apply F. apply in_or_app. right. exact Hb.
  Qed.
  Lemma sorted_sub st l1 l2 : StronglySorted (fun a b => ind st b < ind st a) (l1 ++ l2) -> StronglySorted (fun a b => ind st b < ind st a) l2.
  Proof. induction l1 as [|c l1 IH]; intros HS; [exact HS|]. cbn in HS. inversion HS; subst. auto. Qed.

  (** the loop over the neighbours of [u], after the neighbours in [pre] *)
  Record mid (st0 : tj) (P : list string) (u : string) (pre : list string) (st : tj) : Prop := {
    m_inv : inv st (u :: P);
    m_old : forall x, In x V -> ind st0 x <> -1 -> ind st x = ind st0 x /\ low st x = low st0 x;
    m_idx : t_index st0 < t_index st;
    m_u : ind st u = t_index st0;
    m_lu : low st u <= t_index st0;
    m_pre : forall y, In y pre -> ind st y <> -1;
    m_edge : forall y, In y pre -> In y (t_stack st0) -> low st u <= ind st0 y;
    m_new : exists new, t_stack st = new ++ u :: t_stack st0 /\ (forall x y, In x new -> In y (t_stack st0) -> E x y -> low st u <= ind st0 y) }.

  Lemma mid_white st0 P u pre st : inv st0 P -> In u V -> ind st0 u = -1 -> mid st0 P u pre st -> (white st < white st0)%nat.
  Proof.
    intros I Hu Hw M. unfold white. apply (filter_lt _ _ V u).
    - intros x Hx K. apply Z.eqb_eq in K. apply Z.eqb_eq. destruct (Z.eq_dec (ind st0 x) (-1)) as [X|X]; [exact X|]. destruct (m_old _ _ _ _ _ M x Hx X) as [A _]. lia.
    - exact Hu.
    - apply Z.eqb_neq. rewrite (m_u _ _ _ _ _ M). destruct (v_bnd _ _ I). lia.
    - apply Z.eqb_eq. exact Hw.
  Qed.

  (** leaving the call *)
  Lemma leave st0 P u pre st : inv st0 P -> In u V -> ind st0 u = -1 -> mid st0 P u pre st -> (forall v, In v pre <-> E u v) ->
    wp (lu <- dgetE (t_low st) u ;; iu <- dgetE (t_ind st) u ;;
        if lu =? iu then
          let '(stack, on, component) := tj_pop (t_stack st) (t_on st) [] u in
          Ret (mktj (t_index st) stack (t_ind st) (t_low st) on (t_comps st ++ [component]))
        else Ret st) (fun st' => inv st' P /\ post st0 st' u).
  Proof.
    intros I0 Hu Hw M Hpre. assert (I := m_inv _ _ _ _ _ M). destruct (v_has _ _ I u Hu) as (H1 & H2 & _).
    rewrite (dgetE_ix (t_low st)) by exact H2. rewrite (dgetE_ix (t_ind st)) by exact H1. cbn [bind].
    destruct (m_new _ _ _ _ _ M) as (new & ES & EN). assert (B0 := v_bnd _ _ I0).
    assert (NS0 : ~ In u (t_stack st0)) by (intros X; apply (v_stk _ _ I0) in X; lia).
    assert (NDs := sorted_nodup _ _ I). rewrite ES in NDs.
    assert (Hun : ~ In u new) by (apply NoDup_remove_2 in NDs; intros X; apply NDs; apply in_or_app; left; exact X).
    assert (OLD : forall x, In x (t_stack st0) -> ind st x = ind st0 x).
    { intros x Hx. apply (m_old _ _ _ _ _ M); [apply (v_stk _ _ I0 x Hx)|]. destruct (v_stk _ _ I0 x Hx). lia. }
    assert (PS0 : forall p, In p P -> In p (t_stack st0)) by apply (v_gray _ _ I0).
    destruct (Z.eqb_spec (low st u) (ind st u)) as [EQ|NE].
    - rewrite ES. destruct (tj_pop_spec new (t_on st) [] u (t_stack st0)) as (on' & E1 & E2 & E3).
      + exact Hun.
      + assert (X : NoDup ((new ++ [u]) ++ t_stack st0)) by (rewrite <- app_assoc; exact NDs). clear - X. induction (new ++ [u]) as [|a l IH]; [constructor|]. cbn in X. inversion X; subst. constructor; [intros Y; apply H1; apply in_or_app; auto|auto].
      + intros x [].
      + rewrite E1. cbn [app]. cbn [wp]. set (C := new ++ [u]) in *.
        assert (SC : t_stack st = C ++ t_stack st0) by (unfold C; rewrite <- app_assoc; exact ES).
        assert (CS : forall x, In x C -> In x (t_stack st)) by (intros x Hx; rewrite SC; apply in_or_app; auto).
        assert (S0S : forall x, In x (t_stack st0) -> In x (t_stack st)) by (intros x Hx; rewrite SC; apply in_or_app; auto).
        assert (UC : In u C) by (unfold C; apply in_or_app; right; left; reflexivity).
        assert (SO := v_sort _ _ I). rewrite SC in SO. assert (ORD := sorted_app st C (t_stack st0) SO).
        assert (CN : forall x, In x C -> ~ In x (t_stack st0)) by (intros x A B; specialize (ORD x x A B); lia).
        (* every edge out of the section stays in it or goes to a finished component *)
        assert (CL : forall x y, In x C -> E x y -> In y C \/ In y (done st)).
        { intros x y Hx Hxy. destruct (edge_V _ _ Hxy) as [Vx Vy]. assert (Yv : ind st y <> -1).
          { apply in_app_or in Hx as [Hx|[<-|[]]]; [|apply (m_pre _ _ _ _ _ M); apply Hpre; exact Hxy].
            apply (v_black _ _ I x y Vx); [apply (v_vis _ _ I x Vx); left; apply CS; apply in_or_app; auto| |exact Hxy].
            intros [->|X]; [contradiction|]. apply (CN x); [unfold C; apply in_or_app; auto|auto]. }
          apply (v_vis _ _ I y Vy) in Yv as [Yv|Yv]; [|auto]. rewrite SC in Yv. apply in_app_or in Yv as [Yv|Yv]; [auto|]. exfalso.
          assert (low st u <= ind st0 y). { apply in_app_or in Hx as [Hx|[<-|[]]]; [apply (EN x y); assumption|]. apply (m_edge _ _ _ _ _ M); [apply Hpre; exact Hxy|exact Yv]. }
          rewrite <- OLD in H by exact Yv. specialize (ORD u y UC Yv). lia. }
        assert (DEC : forall x, {In x C \/ In x (done st)} + {~ (In x C \/ In x (done st))}).
        { intros x. destruct (in_dec SD x C); [left; auto|]. destruct (in_dec SD x (done st)); [left; auto|right; tauto]. }
        assert (STAY : forall x y, In x C -> R x y -> In y C \/ In y (done st)).
        { intros x y Hx Hr. destruct (DEC y) as [D|D]; [exact D|]. exfalso. destruct (reach_cross G (fun x => In x C \/ In x (done st)) x y DEC Hr (or_introl Hx) D) as (a & b & A & B & AB & _).
          apply B. destruct A as [A|A]; [apply (CL a b A AB)|right; apply (v_closed _ _ I a b A AB)]. }
        assert (TOU : forall x, In x C -> R x u).
        { intros x Hx. destruct (v_up _ _ I x (CS x Hx)) as (p & [<-|Hp] & B & A); [exact A|]. exfalso. assert (PS := S0S p (PS0 p Hp)).
          destruct (STAY x p Hx A) as [X|X]; [apply (CN p X); auto|]. apply (v_disj _ _ I p PS X). }
        assert (FRU : forall x, In x C -> R u x).
        { intros x Hx. apply (v_down _ _ I u x); [left; reflexivity|apply CS; exact Hx|]. unfold C in Hx. apply in_app_or in Hx as [Hx|[<-|[]]]; [|lia].
          apply Z.lt_le_incl. apply (sorted_app st new (u :: t_stack st0)); [|exact Hx|left; reflexivity]. rewrite <- ES. apply (v_sort _ _ I). }
        assert (SCC : scc C).
        { split; [intros X; rewrite X in UC; destruct UC|]. intros x Hx v. split.
          - intros Hv. split; eapply reach_trans; [apply (TOU x Hx)|apply (FRU v Hv)|apply (TOU v Hv)|apply (FRU x Hx)].
          - intros [A B]. destruct (STAY x v Hx A) as [X|X]; [exact X|]. exfalso. apply (v_disj _ _ I x (CS x Hx)). apply (done_reach st (u :: P) v x I X B). }
        assert (DN : concat (t_comps st ++ [C]) = done st ++ C) by (rewrite concat_app; cbn; rewrite app_nil_r; reflexivity).
        split.
        * constructor; cbn [t_index t_stack t_ind t_low t_on t_comps]; unfold done; cbn [t_comps]; rewrite ?DN.
          -- intros x Hx. destruct (v_has _ _ I x Hx) as (A & B & D). auto.
          -- intros x Hx. apply (v_stk _ _ I x (S0S x Hx)).
          -- apply (sorted_sub st C). exact SO.
          -- intros x Hx. rewrite E2. destruct (mem_spec x C) as [X|X]; [split; [discriminate|intros Y; exfalso; apply (CN x X Y)]|]. rewrite (v_on _ _ I x Hx), SC, in_app_iff. tauto.
          -- intros x Hx. rewrite (v_vis _ _ I x Hx), SC, !in_app_iff. tauto.
          -- intros x Hx. apply in_app_or in Hx as [Hx|Hx]; [apply (v_dV _ _ I x Hx)|apply (v_stk _ _ I x (CS x Hx))].
          -- intros x Hx X. apply in_app_or in X as [X|X]; [apply (v_disj _ _ I x (S0S x Hx) X)|apply (CN x X Hx)].
          -- assert (NC : NoDup C). { rewrite ES in SC. rewrite SC in NDs. clear - NDs. induction C as [|a l IH]; [constructor|]. cbn in NDs. inversion NDs; subst. constructor; [intros Y; apply H1; apply in_or_app; auto|]. apply IH. exact H2. }
             assert (ND' := v_nd _ _ I). assert (DJ : forall x, In x (done st) -> ~ In x C) by (intros x A B; apply (v_disj _ _ I x (CS x B) A)).
             clear - NC ND' DJ. induction (done st) as [|a l IH]; [exact NC|]. cbn. inversion ND'; subst. constructor; [|apply IH; [assumption|intros x Hx; apply DJ; right; exact Hx]].
             intros X. apply in_app_or in X as [X|X]; [contradiction|]. apply (DJ a); [left; reflexivity|exact X].
          -- apply (v_bnd _ _ I).
          -- exact PS0.
          -- intros p x Hp Hx. apply (v_down _ _ I p x); [right; exact Hp|apply S0S; exact Hx].
          -- intros x Hx. destruct (v_up _ _ I x (S0S x Hx)) as (p & [<-|Hp] & A & B); [|exists p; auto]. exfalso. specialize (ORD u x UC Hx). lia.
          -- intros x y Hx Hy. rewrite in_app_iff in *. destruct Hx as [Hx|Hx]; [left; apply (v_closed _ _ I x y Hx Hy)|]. destruct (CL x y Hx Hy); auto.
          -- intros X HX. apply in_app_or in HX as [HX|[<-|[]]]; [apply (v_scc _ _ I X HX)|exact SCC].
          -- intros x y Hx Vx NP Exy. destruct (SD x u) as [->|Hn]; [apply (m_pre _ _ _ _ _ M); apply Hpre; exact Exy|]. apply (v_black _ _ I x y Hx Vx); [|exact Exy]. intros [X|X]; [congruence|contradiction].
          -- intros v Hv. destruct (v_low _ _ I v (S0S v Hv)) as (w & A & B & D & F). exists w. split; [|auto]. rewrite SC in A. apply in_app_or in A as [A|A]; [|exact A]. exfalso. specialize (ORD w v A Hv). lia.
        * constructor; cbn [t_index t_stack t_ind t_low t_on t_comps].
          -- apply (m_old _ _ _ _ _ M).
          -- assert (Z := m_idx _ _ _ _ _ M). lia.
          -- rewrite (m_u _ _ _ _ _ M). lia.
          -- exists []. split; [reflexivity|]. right. split; [exact NS0|]. split; [reflexivity|]. rewrite EQ, (m_u _ _ _ _ _ M). lia.
    - cbn [wp]. assert (LT : low st u < ind st u). { assert (X := m_lu _ _ _ _ _ M). rewrite (m_u _ _ _ _ _ M) in *. lia. }
      assert (US : In u (t_stack st)) by (rewrite ES; apply in_or_app; right; left; reflexivity).
      assert (UP : exists q, In q P /\ ind st q < ind st u /\ R u q).
      { destruct (v_low _ _ I u US) as (w & A & B & D & F). destruct (v_up _ _ I w A) as (q & [<-|Hq] & K & L); [lia|]. exists q. split; [exact Hq|]. split; [lia|]. eapply reach_trans; eauto. }
      split.
      + destruct I. constructor; auto.
        * intros p Hp. apply v_gray0. right. exact Hp.
        * intros p x Hp. apply v_down0. right. exact Hp.
        * intros x Hx. destruct (v_up0 x Hx) as (p & [<-|Hp] & A & B); [|exists p; auto]. destruct UP as (q & Q1 & Q2 & Q3). exists q. split; [exact Q1|]. split; [lia|]. eapply reach_trans; eauto.
        * intros x y Hx Vx NP Exy. destruct (SD x u) as [->|Hn]; [apply (m_pre _ _ _ _ _ M); apply Hpre; exact Exy|]. apply (v_black0 x y Hx Vx); [|exact Exy]. intros [X|X]; [congruence|contradiction].
      + constructor.
        * apply (m_old _ _ _ _ _ M).
        * assert (Z := m_idx _ _ _ _ _ M). lia.
        * rewrite (m_u _ _ _ _ _ M). lia.
        * exists (new ++ [u]). split; [rewrite <- app_assoc; exact ES|]. left. split; [apply in_or_app; right; left; reflexivity|]. intros x y Hx Hy Exy. apply in_app_or in Hx as [Hx|[<-|[]]]; [apply (EN x y Hx Hy Exy)|].
          apply (m_edge _ _ _ _ _ M); [apply Hpre; exact Exy|exact Hy].
  Qed.

  Lemma dfs_ok : forall f st P u, inv st P -> In u V -> ind st u = -1 -> (forall p, In p P -> R p u) -> (white st < f)%nat ->
    wp (tarjan_dfs f g u st) (fun st' => inv st' P /\ post st st' u).
  Proof.
    induction f as [|f IH]; intros st0 P u I0 Hu Hw HR Hf; [lia|]. cbn [tarjan_dfs]. fold (entered st0 u).
    destruct HG as (_ & _ & _ & _ & _ & HN). destruct (HN u Hu) as (l & El & NDl & Hl). rewrite El. cbn [bind]. apply wp_bind.
    assert (IE := inv_entered st0 P u I0 Hu Hw HR). assert (B0 := v_bnd _ _ I0).
    eapply wp_mono; [apply (wp_forM _ _ _ _ (mid st0 P u))|].
    - intros pre v post0 st El' M. assert (I := m_inv _ _ _ _ _ M). assert (Euv : E u v) by (apply Hl; rewrite El'; apply in_or_app; right; left; reflexivity).
      destruct (edge_V _ _ Euv) as [_ Vv]. destruct (v_has _ _ I v Vv) as (H1 & H2 & H3). destruct (v_has _ _ I u Hu) as (K1 & K2 & K3).
      destruct (m_new _ _ _ _ _ M) as (new & ES & EN). assert (US : In u (t_stack st)) by (rewrite ES; apply in_or_app; right; left; reflexivity).
      assert (MU := m_u _ _ _ _ _ M). assert (ML := m_lu _ _ _ _ _ M).
      assert (OLDS : forall x, In x (t_stack st0) -> ind st0 x <> -1) by (intros x Hx; destruct (v_stk _ _ I0 x Hx); lia).
      rewrite (dgetE_ix (t_ind st)) by exact H1. cbn [bind]. destruct (Z.eqb_spec (ind st v) (-1)) as [EV|EV].
      + apply wp_bind. eapply wp_mono; [apply (IH st (u :: P) v)|].
        * exact I.
        * exact Vv.
        * exact EV.
        * intros p [<-|Hp]; [apply reach_edge; exact Euv|]. apply reach_trans with u; [apply HR; exact Hp|apply reach_edge; exact Euv].
        * assert (X := mid_white st0 P u pre st I0 Hu Hw M). lia.
        * intros st1 [I1 Q]. destruct (v_has _ _ I1 v Vv) as (H1' & H2' & H3'). destruct (v_has _ _ I1 u Hu) as (K1' & K2' & K3').
          rewrite (dgetE_ix (t_low st1) u) by exact K2'. rewrite (dgetE_ix (t_low st1) v) by exact H2'. cbn [bind wp].
          assert (Uv : ind st u <> -1) by lia. destruct (p_old _ _ _ Q u Hu Uv) as [U1 U2]. destruct (p_new _ _ _ Q) as (nw & ES1 & CASE).
          assert (US1 : In u (t_stack st1)) by (rewrite ES1; apply in_or_app; right; exact US).
          assert (LM : low st1 u <= ind st1 u) by lia.
          assert (SAME : forall x, In x V -> ind st0 x <> -1 -> ind st1 x = ind st0 x /\ low st1 x = low st0 x).
          { intros x Hx Xv. destruct (m_old _ _ _ _ _ M x Hx Xv) as [A B]. destruct (p_old _ _ _ Q x Hx) as [A' B']; [lia|]. split; congruence. }
          assert (LOW : exists w, In w (t_stack st1) /\ ind st1 w = Z.min (low st1 u) (low st1 v) /\ Z.min (low st1 u) (low st1 v) <= ind st1 u /\ R u w).
          { destruct CASE as [[Vn _]|(_ & _ & Lv)].
            - destruct (Z.min_spec (low st1 u) (low st1 v)) as [[A ->]|[A ->]].
              + destruct (v_low _ _ I1 u US1) as (w & X & Y & Z & W). exists w. auto.
              + destruct (v_low _ _ I1 v) as (w & X & Y & Z & W); [rewrite ES1; apply in_or_app; left; exact Vn|]. exists w. split; [exact X|]. split; [exact Y|]. split; [lia|]. apply reach_trans with v; [apply reach_edge; exact Euv|exact W].
            - assert (ind st u < t_index st) by (apply (proj2 (v_bnd _ _ I) u Hu)). rewrite Z.min_l by lia. destruct (v_low _ _ I1 u US1) as (w & X & Y & Z & W). exists w. auto. }
          assert (UN0 : ~ In u (t_stack st0)) by (intros X; apply OLDS in X; lia).
          constructor; cbn [t_index t_stack t_ind t_low t_on t_comps].
          -- apply (inv_low st1 (u :: P) u _ I1 US1 LOW).
          -- intros x Hx Xv. rewrite ix_set. destruct (SE x u) as [->|]; [congruence|]. apply SAME; assumption.
          -- assert (X := m_idx _ _ _ _ _ M). assert (Y := p_idx _ _ _ Q). lia.
          -- lia.
          -- rewrite ix_set, String.eqb_refl. lia.
          -- intros y Hy. apply in_app_or in Hy as [Hy|[<-|[]]]; [|apply (p_u _ _ _ Q)]. assert (X := m_pre _ _ _ _ _ M y Hy).
             destruct (p_old _ _ _ Q y) as [A _]; [|exact X|lia]. assert (Ey : E u y) by (apply Hl; rewrite El'; apply in_or_app; left; exact Hy). apply (edge_V _ _ Ey).
          -- intros y Hy Sy. rewrite ix_set, String.eqb_refl. apply in_app_or in Hy as [Hy|[<-|[]]]; [assert (X := m_edge _ _ _ _ _ M y Hy Sy); lia|]. apply OLDS in Sy. destruct (m_old _ _ _ _ _ M v Vv Sy). lia.
          -- exists (nw ++ new). split; [rewrite ES1, ES, <- app_assoc; reflexivity|]. intros x y Hx Hy Exy. rewrite ix_set, String.eqb_refl. apply in_app_or in Hx as [Hx|Hx].
             ++ destruct CASE as [[_ F]|(_ & -> & _)]; [|destruct Hx]. assert (X : low st1 v <= ind st y) by (apply (F x y Hx); [rewrite ES; apply in_or_app; right; right; exact Hy|exact Exy]).
                destruct (m_old _ _ _ _ _ M y) as [A _]; [apply (v_stk _ _ I0 y Hy)|apply OLDS; exact Hy|]. lia.
             ++ assert (X := EN x y Hx Hy Exy). lia.
      + rewrite (dgetE_on (t_on st)) by exact H3. cbn [bind]. destruct (on st v) eqn:Ov.
        * assert (VS : In v (t_stack st)) by (apply (v_on _ _ I v Vv); exact Ov). rewrite (dgetE_ix (t_low st) u) by exact K2. rewrite (dgetE_ix (t_low st) v) by exact H2. cbn [bind wp].
          assert (UN0 : ~ In u (t_stack st0)) by (intros X; apply OLDS in X; lia).
          assert (LOW : exists w, In w (t_stack st) /\ ind st w = Z.min (low st u) (low st v) /\ Z.min (low st u) (low st v) <= ind st u /\ R u w).
          { destruct (Z.min_spec (low st u) (low st v)) as [[A ->]|[A ->]].
            - destruct (v_low _ _ I u US) as (w & X & Y & Z & W). exists w. auto.
            - destruct (v_low _ _ I v VS) as (w & X & Y & Z & W). exists w. split; [exact X|]. split; [exact Y|]. split; [lia|]. apply reach_trans with v; [apply reach_edge; exact Euv|exact W]. }
          constructor; cbn [t_index t_stack t_ind t_low t_on t_comps].
          -- apply (inv_low st (u :: P) u _ I US LOW).
          -- intros x Hx Xv. rewrite ix_set. destruct (SE x u) as [->|]; [congruence|]. apply (m_old _ _ _ _ _ M); assumption.
          -- apply (m_idx _ _ _ _ _ M).
          -- exact MU.
          -- rewrite ix_set, String.eqb_refl. lia.
          -- intros y Hy. apply in_app_or in Hy as [Hy|[<-|[]]]; [apply (m_pre _ _ _ _ _ M y Hy)|exact EV].
          -- intros y Hy Sy. rewrite ix_set, String.eqb_refl. apply in_app_or in Hy as [Hy|[<-|[]]]; [assert (X := m_edge _ _ _ _ _ M y Hy Sy); lia|].
             destruct (v_low _ _ I v VS) as (w & X & Y & Z & W). destruct (m_old _ _ _ _ _ M v Vv (OLDS v Sy)). lia.
          -- exists new. split; [exact ES|]. intros x y Hx Hy Exy. rewrite ix_set, String.eqb_refl. assert (X := EN x y Hx Hy Exy). lia.
        * cbn [wp]. destruct M as [M1 M2 M3 M4 M5 M6 M7 M8]. constructor; auto.
          -- intros y Hy. apply in_app_or in Hy as [Hy|[<-|[]]]; [auto|exact EV].
          -- intros y Hy Sy. apply in_app_or in Hy as [Hy|[<-|[]]]; [auto|]. exfalso. assert (VS : In v (t_stack st)) by (rewrite ES; apply in_or_app; right; right; exact Sy). apply (v_on _ _ I v Vv) in VS. congruence.
    - assert (UN0 : ~ In u (t_stack st0)) by (intros X; apply (v_stk _ _ I0) in X; lia).
      constructor; cbn [entered t_index t_stack t_ind t_low t_on t_comps].
      + exact IE.
      + intros x Hx Xv. rewrite !ix_set. destruct (SE x u) as [->|]; [contradiction|auto].
      + lia.
      + rewrite ix_set, String.eqb_refl. reflexivity.
      + rewrite ix_set, String.eqb_refl. lia.
      + intros y [].
      + intros y [].
      + exists []. split; [reflexivity|]. intros x y [].
    - intros st M. apply (leave st0 P u l st I0 Hu Hw M). intros v. apply Hl.
  Qed.

  Lemma inv_start : inv (fold_left (fun st u => mktj (t_index st) (t_stack st) (sdset (t_ind st) u (-1)) (sdset (t_low st) u (-1)) (sdset (t_on st) u false) (t_comps st)) V (mktj 0 [] [] [] [] [])) [].
  Proof.
    set (step := fun st u => mktj (t_index st) (t_stack st) (sdset (t_ind st) u (-1)) (sdset (t_low st) u (-1)) (sdset (t_on st) u false) (t_comps st)).
    assert (A : forall l st, (forall x, ind st x = -1) -> (forall x, on st x = false) -> t_index st = 0 -> t_stack st = [] -> t_comps st = [] ->
      let st' := fold_left step l st in (forall x, ind st' x = -1) /\ (forall x, on st' x = false) /\ t_index st' = 0 /\ t_stack st' = [] /\ t_comps st' = [] /\
        forall x, (In x l \/ (has (t_ind st) x /\ has (t_low st) x /\ has (t_on st) x)) -> has (t_ind st') x /\ has (t_low st') x /\ has (t_on st') x).
    { induction l as [|a l IH]; intros st A1 A2 A3 A4 A5; cbn [fold_left].
      - cbn. repeat (split; [assumption|]). intros x [[]|H]; exact H.
      - destruct (IH (step st a)) as (B1 & B2 & B3 & B4 & B5 & B6); cbn [step t_index t_stack t_ind t_low t_on t_comps]; auto.
        + intros x. rewrite ix_set. destruct (SE x a); auto.
        + intros x. rewrite on_set. destruct (SE x a); auto.
        + repeat (split; [assumption|]). intros x Hx. apply B6. cbn [step t_index t_stack t_ind t_low t_on t_comps].
          destruct Hx as [[<-|Hx]|(H1 & H2 & H3)]; [|left; exact Hx|right; auto using has_set]. right.
          assert (Q : forall W (d : list (string * W)) v, has (sdset d a v) a).
          { intros W d v. unfold has. rewrite sset_keys. destruct (mem_spec a (map fst d)); [assumption|apply in_or_app; right; left; reflexivity]. }
          auto. }
    destruct (A V (mktj 0 [] [] [] [] [])) as (B1 & B2 & B3 & B4 & B5 & B6); try reflexivity. set (st := fold_left _ _ _) in *.
    assert (DN : done st = []) by (unfold done; rewrite B5; reflexivity).
    constructor; rewrite ?B3, ?B4, ?B5, ?DN; try (intros x []; fail); try (intros x y []; fail).
    - intros x Hx. apply B6. left. exact Hx.
    - constructor.
    - intros x Hx. rewrite B2. split; [discriminate|intros []].
    - intros x Hx. rewrite B1. split; [lia|intros [[]|[]]].
    - constructor.
    - split; [lia|]. intros x Hx. rewrite B1. lia.
    - intros x y _ X. rewrite B1 in X. lia.
  Qed.

  Lemma tarjan_ok : wp (tarjan g) (components_of G).
  Proof.
    unfold tarjan. assert (EV : gv_vertices g = V) by apply HG. rewrite EV. apply wp_bind.
    eapply wp_mono; [apply (wp_forM _ _ _ _ (fun pre st => inv st [] /\ forall x, In x pre -> ind st x <> -1))|].
    - intros pre u post0 st El [I Hpre]. assert (Vu : In u V) by (rewrite El; apply in_or_app; right; left; reflexivity).
      destruct (v_has _ _ I u Vu) as (H1 & _ & _). rewrite (dgetE_ix (t_ind st)) by exact H1. cbn [bind]. destruct (Z.eqb_spec (ind st u) (-1)) as [X|X].
      + eapply wp_mono; [apply (dfs_ok _ st [] u I Vu X)|].
        * intros p [].
        * unfold white. assert (L : (length (filter (fun x => Z.eqb (ind st x) (-1)%Z) V) <= length V)%nat) by (clear; induction V as [|a l IH]; cbn; [lia|]; destruct (Z.eqb _ _); cbn; lia). lia.
        * intros st' [I' Q]. split; [exact I'|]. intros x Hx. apply in_app_or in Hx as [Hx|[<-|[]]]; [|apply (p_u _ _ _ Q)].
          destruct (p_old _ _ _ Q x) as [A _]; [rewrite El; apply in_or_app; left; exact Hx|apply Hpre; exact Hx|]. rewrite A. apply Hpre. exact Hx.
      + cbn [wp]. split; [exact I|]. intros x Hx. apply in_app_or in Hx as [Hx|[<-|[]]]; [apply Hpre; exact Hx|exact X].
    - split; [apply inv_start|intros x []].
    - intros st [I Hall]. cbn [wp]. assert (S0 : t_stack st = []). { destruct (t_stack st) as [|x l] eqn:Es; [reflexivity|]. destruct (v_up _ _ I x) as (p & [] & _). rewrite Es. left. reflexivity. }
      split; [|apply (v_scc _ _ I)]. apply NoDup_Permutation.
      + apply (v_nd _ _ I).
      + apply HG.
      + intros x. split; [apply (v_dV _ _ I)|]. intros Hx. assert (X := proj1 (v_vis _ _ I x Hx) (Hall x Hx)). rewrite S0 in X. destruct X as [[]|X]. exact X.
  Qed.
End T.
