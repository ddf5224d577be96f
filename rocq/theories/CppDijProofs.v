(** The C++ dijkstra's loop on vertex ids (C109): with non-negative weights and the priority queue, every vertex is expanded at most once. *)
From Coq Require Import Strings.String Sorting.Sorted.
From Verif Require Import Base ArraysProofs CppModel CppProofs CppGraphModel.
Import List.

Lemma pq_push_In x q y : In y (pq_push x q) <-> y = x \/ In y q.
Proof. induction q as [|z q IH]; cbn [pq_push In]; [intuition|]. destruct (pair_leb x z); cbn [In]; [intuition|]. rewrite IH. intuition. Qed.
Lemma pq_push_perm x q : Permutation (pq_push x q) (x :: q).
Proof. induction q as [|z q IH]; cbn [pq_push]; [reflexivity|]. destruct (pair_leb x z); [reflexivity|]. rewrite IH. apply perm_swap. Qed.
Lemma pq_push_len x q : length (pq_push x q) = S (length q).
Proof. rewrite (Permutation_length (pq_push_perm x q)). reflexivity. Qed.
Lemma pq_push_nodup x q : NoDup q -> ~ In x q -> NoDup (pq_push x q).
Proof. intros H1 H2. eapply Permutation_NoDup; [symmetry; apply pq_push_perm|]. constructor; assumption. Qed.
Definition fle (x y : Z * Z) : Prop := fst x <= fst y.
Lemma pq_push_sorted x q : StronglySorted fle q -> StronglySorted fle (pq_push x q).
Proof.
  induction q as [|z q IH]; intros H; cbn [pq_push]; [repeat constructor|]. inversion H; subst. destruct (pair_leb x z) eqn:E.
  - constructor; [exact H|]. unfold pair_leb in E. assert (fst x <= fst z) by (destruct (fst x <? fst z) eqn:?; [lia|]; destruct (fst x =? fst z) eqn:?; [lia|discriminate]).
    constructor; [exact H0|]. eapply Forall_impl; [|exact H3]. unfold fle. intros a Ha. lia.
  - constructor; [auto|]. apply Forall_forall. intros y Hy. apply pq_push_In in Hy as [->|Hy]; [|rewrite Forall_forall in H3; auto]. unfold pair_leb in E. unfold fle. destruct (fst x <? fst z) eqn:Q; [discriminate|]. lia.
Qed.

Lemma zmem_spec x l : reflect (In x l) (zmem x l).
Proof. unfold zmem. destruct (existsb (Z.eqb x) l) eqn:E; constructor; [apply existsb_exists in E as (y & Hy & E); apply Z.eqb_eq in E; subst; exact Hy|]. intros H. assert (X : existsb (Z.eqb x) l = true); [|congruence]. apply existsb_exists. exists x. split; [exact H|apply Z.eqb_refl]. Qed.

Section D.
  Context (V : Z) (adj : list (list (Z * Z))) (s : Z).
  Context (HA : len adj = V) (HW : forall u v w, 0 <= u < V -> In (v, w) (zn [] adj u) -> 0 <= v < V /\ 0 <= w) (Hs : 0 <= s < V).
  Notation "dist '!' v" := (zn (@None Z) dist v) (at level 9, format "dist ! v").
  Inductive iw : Z -> Z -> Prop :=
  | iw_nil : iw s 0
  | iw_snoc u d v w : iw u d -> In (v, w) (zn [] adj u) -> iw v (d + w).
  Lemma iw_ok v d : iw v d -> 0 <= v < V /\ 0 <= d.
  Proof. intros H. induction H as [|u d v w H [IH1 IH2] He]; [lia|]. destruct (HW u v w IH1 He). lia. Qed.

  Record rec (S : list Z) (Rx : Z -> Z * Z -> Prop) (dist : list (option Z)) (pred : list Z) (pq : list (Z * Z)) : Prop := {
    r_len : len dist = V; r_lenp : len pred = V;
    r_walk : forall v d, 0 <= v < V -> dist!v = Some d -> iw v d;
    r_src : dist!s = Some 0;
    r_pq : forall d v, In (d, v) pq -> 0 <= v < V /\ exists d', dist!v = Some d' /\ d' <= d;
    r_nd : NoDup pq;
    r_sorted : StronglySorted fle pq;
    r_set : forall x, In x S -> 0 <= x < V /\ exists dx, dist!x = Some dx /\ ~ In (dx, x) pq /\ forall d v, In (d, v) pq -> dx <= d;
    r_un : forall v d, 0 <= v < V -> dist!v = Some d -> ~ In v S -> In (d, v) pq;
    r_rel : forall x v w, Rx x (v, w) -> In x S /\ 0 <= v < V /\ exists dx dv, dist!x = Some dx /\ dist!v = Some dv /\ dv <= dx + w;
    r_ndS : NoDup S;
    r_pred : forall v, 0 <= v < V -> (zn (-1) pred v = -1 /\ (v = s \/ dist!v = None)) \/
      (v <> s /\ In (zn (-1) pred v) S /\ (In v S -> exists S1 S2, S = S1 ++ v :: S2 /\ In (zn (-1) pred v) S2) /\
       exists w dp, In (v, w) (zn [] adj (zn (-1) pred v)) /\ dist!(zn (-1) pred v) = Some dp /\ dist!v = Some (dp + w)) }.
  Definition relaxed (S : list Z) : Z -> Z * Z -> Prop := fun x e => In x S /\ In e (zn [] adj x).

  (** one edge of the vertex [u], just settled at distance [x] *)
  Lemma rec_edge S Rx dist pred pq u x v w : rec S Rx dist pred pq -> In u S -> dist!u = Some x -> In (v, w) (zn [] adj u) ->
    (forall y, In y S -> exists dy, dist!y = Some dy /\ dy <= x) -> (forall d y, In (d, y) pq -> x <= d) ->
    dlt (x + w) (dist!v) = true ->
    rec S (fun y e => Rx y e \/ (y = u /\ e = (v, w))) (zupd dist v (Some (x + w))) (zupd pred v u) (pq_push (x + w, v) pq) /\
    (forall y, In y S -> exists dy, (zupd dist v (Some (x + w)))!y = Some dy /\ dy <= x) /\ (forall d y, In (d, y) (pq_push (x + w, v) pq) -> x <= d) /\ (zupd dist v (Some (x + w)))!u = Some x.
  Proof.
    intros [R1 R1' R2 R3 R4 R5 R6 R7 R8 R9 R10 R11] HuS Hux He HT HQ Hlt.
    assert (Hu : 0 <= u < V) by apply (R7 u HuS). destruct (HW u v w Hu He) as [Hv Hw].
    assert (HvS : forall y, In y S -> y <> v). { intros y Hy ->. destruct (HT v Hy) as (dy & E & L). rewrite E in Hlt. cbn [dlt] in Hlt. lia. }
    assert (NE : forall y, 0 <= y -> y <> v -> (zupd dist v (Some (x + w)))!y = dist!y). { intros y Hy Hn. apply zn_zupd_ne; [rewrite R1; exact Hv|exact Hy|congruence]. }
    assert (EQ : (zupd dist v (Some (x + w)))!v = Some (x + w)) by (apply zn_zupd_eq; rewrite R1; exact Hv).
    assert (SS : forall y, In y S -> (zupd dist v (Some (x + w)))!y = dist!y). { intros y Hy. apply NE; [apply (R7 y Hy)|apply HvS; exact Hy]. }
    assert (Hvs : v <> s). { intros ->. rewrite R3 in Hlt. cbn [dlt] in Hlt. destruct (iw_ok u x (R2 u x Hu Hux)). lia. }
    assert (FR : ~ In (x + w, v) pq). { intros X. destruct (R4 _ _ X) as (_ & d' & E & L). rewrite E in Hlt. cbn [dlt] in Hlt. lia. }
    assert (R7' := R7). split; [constructor|split; [|split]].
    - rewrite len_zupd. exact R1.
    - rewrite len_zupd. exact R1'.
    - intros y d Hy. destruct (Z.eq_dec y v) as [->|Hn]; [rewrite EQ; intros [= <-]; apply (iw_snoc u x v w (R2 u x Hu Hux) He)|]. rewrite NE by lia. apply R2. exact Hy.
    - rewrite NE by (try congruence; lia). exact R3.
    - intros d y Hy. apply pq_push_In in Hy as [[= -> ->]|Hy]; [split; [exact Hv|]; rewrite EQ; exists (x + w); split; [reflexivity|lia]|].
      destruct (R4 d y Hy) as (A & d' & E & L). split; [exact A|]. destruct (Z.eq_dec y v) as [->|Hn]; [|rewrite NE by lia; eauto]. rewrite EQ. exists (x + w). split; [reflexivity|]. rewrite E in Hlt. cbn [dlt] in Hlt. lia.
    - apply pq_push_nodup; assumption.
    - apply pq_push_sorted. exact R6.
    - intros y Hy. destruct (R7 y Hy) as (A & dy & E & N & L). split; [exact A|]. exists dy. rewrite SS by exact Hy. split; [exact E|]. destruct (HT y Hy) as (dy' & E' & L'). rewrite E in E'. injection E' as <-. split.
      + rewrite pq_push_In. intros [[= X Y]|X]; [|contradiction]. exact (HvS y Hy Y).
      + intros d z Hz. apply pq_push_In in Hz as [[= -> ->]|Hz]; [lia|]. apply (L d z Hz).
    - intros y d Hy. rewrite pq_push_In. destruct (Z.eq_dec y v) as [->|Hn]; [rewrite EQ; intros [= <-] _; left; reflexivity|]. rewrite NE by lia. intros E N. right. apply R8; assumption.
    - intros y z c [H|[-> [= -> ->]]].
      + destruct (R9 y z c H) as (A & B & dy & dz & E1 & E2 & L). split; [exact A|]. split; [exact B|]. exists dy. rewrite SS by exact A. destruct (Z.eq_dec z v) as [->|Hn]; [|rewrite NE by lia; eauto 6].
        rewrite EQ. exists (x + w). split; [exact E1|]. split; [reflexivity|]. rewrite E2 in Hlt. cbn [dlt] in Hlt. lia.
      + split; [exact HuS|]. split; [exact Hv|]. exists x, (x + w). rewrite SS by exact HuS. rewrite EQ. repeat split; try assumption. lia.
    - exact R10.
    - intros y Hy. destruct (Z.eq_dec y v) as [->|Hn].
      + right. rewrite zn_zupd_eq by (rewrite R1'; exact Hv). split; [exact Hvs|]. split; [exact HuS|]. split; [intros X; exfalso; exact (HvS v X eq_refl)|]. exists w, x. rewrite SS by exact HuS. rewrite EQ. auto.
      + rewrite zn_zupd_ne by (try (rewrite R1'); lia). rewrite (NE y) by lia. destruct (R11 y Hy) as [H|(A & B & C & w' & dp & D & E & F)]; [left; exact H|right]. split; [exact A|]. split; [exact B|]. split; [exact C|]. exists w', dp. rewrite SS by exact B. auto.
    - intros y Hy. rewrite SS by exact Hy. apply HT. exact Hy.
    - intros d y Hy. apply pq_push_In in Hy as [[= -> ->]|Hy]; [lia|]. apply (HQ d y Hy).
    - rewrite SS by exact HuS. exact Hux.
  Qed.
  Lemma rec_skip S Rx dist pred pq u x v w : rec S Rx dist pred pq -> In u S -> dist!u = Some x -> In (v, w) (zn [] adj u) -> dlt (x + w) (dist!v) = false ->
    rec S (fun y e => Rx y e \/ (y = u /\ e = (v, w))) dist pred pq.
  Proof.
    intros [R1 R1' R2 R3 R4 R5 R6 R7 R8 R9 R10 R11] HuS Hux He Hlt. destruct (HW u v w ltac:(apply (R7 u HuS)) He) as [Hv Hw]. constructor; try assumption.
    intros y z c [H|[-> [= -> ->]]]; [apply R9; exact H|]. split; [exact HuS|]. split; [exact Hv|]. destruct (dist!v) as [dv|] eqn:E; [|discriminate]. exists x, dv. cbn [dlt] in Hlt. repeat split; auto. lia.
  Qed.
  Lemma rec_weaken S (Rx Rx' : Z -> Z * Z -> Prop) dist pred pq : (forall x e, Rx' x e -> Rx x e) -> rec S Rx dist pred pq -> rec S Rx' dist pred pq.
  Proof. intros H [R1 R1' R2 R3 R4 R5 R6 R7 R8 R9 R10 R11]. constructor; try assumption. intros x v w X. apply R9. apply H. exact X. Qed.
  (** the vertex [u] with its current distance on top of the queue becomes settled *)
  Lemma rec_settle S Rx dist pred pq u x : rec S Rx dist pred ((x, u) :: pq) -> dist!u = Some x -> (forall y e, Rx y e -> In y S) ->
    ~ In u S /\ rec (u :: S) Rx dist pred pq /\ (forall y, In y (u :: S) -> exists dy, dist!y = Some dy /\ dy <= x) /\ (forall d y, In (d, y) pq -> x <= d).
  Proof.
    intros [R1 R1' R2 R3 R4 R5 R6 R7 R8 R9 R10 R11] Hux HRx. assert (Hu : 0 <= u < V) by (apply (R4 x u); left; reflexivity). inversion R5; subst. inversion R6; subst.
    assert (NuS : ~ In u S). { intros X. destruct (R7 u X) as (_ & dx & E & N & _). rewrite Hux in E. injection E as <-. apply N. left. reflexivity. }
    assert (HQ : forall d y, In (d, y) pq -> x <= d). { intros d y Hy. rewrite Forall_forall in H4. apply (H4 _ Hy). }
    split; [exact NuS|]. split; [constructor; try assumption|split; [|exact HQ]].
    - intros d v Hd. apply R4. right. exact Hd.
    - intros y [<-|Hy].
      + split; [exact Hu|]. exists x. split; [exact Hux|]. split; [assumption|exact HQ].
      + destruct (R7 y Hy) as (A & dy & E & N & L). split; [exact A|]. exists dy. split; [exact E|]. split; [intros X; apply N; right; exact X|]. intros d v X. apply (L d v). right. exact X.
    - intros v d Hv E N. assert (~ In v S) by (intros X; apply N; right; exact X). destruct (R8 v d Hv E H) as [[= -> ->]|X]; [exfalso; apply N; left; reflexivity|exact X].
    - intros y v w X. destruct (R9 y v w X) as (A & B). split; [right; exact A|exact B].
    - constructor; assumption.
    - intros v Hv. destruct (R11 v Hv) as [H|(A & B & C & D)]; [left; exact H|right]. split; [exact A|]. split; [right; exact B|]. split; [|exact D]. intros [<-|X]; [exists [], S; split; [reflexivity|exact B]|]. destruct (C X) as (S1 & S2 & -> & Y). exists (u :: S1), S2. split; [reflexivity|exact Y].
    - intros y [<-|Hy]; [exists x; split; [exact Hux|lia]|]. destruct (R7 y Hy) as (A & dy & E & N & L). exists dy. split; [exact E|]. apply (L x u). left. reflexivity.
  Qed.
  Lemma rec_stale S Rx dist pred pq u x d : rec S Rx dist pred ((x, u) :: pq) -> dist!u = Some d -> d < x -> rec S Rx dist pred pq.
  Proof.
    intros [R1 R1' R2 R3 R4 R5 R6 R7 R8 R9 R10 R11] E L. inversion R5; subst. inversion R6; subst. constructor; try assumption.
    - intros d' v Hd. apply R4. right. exact Hd.
    - intros y Hy. destruct (R7 y Hy) as (A & dy & E' & N & L'). split; [exact A|]. exists dy. split; [exact E'|]. split; [intros X; apply N; right; exact X|]. intros d' v X. apply (L' d' v). right. exact X.
    - intros v d' Hv E' N. destruct (R8 v d' Hv E' N) as [[= -> ->]|X]; [|exact X]. rewrite E in E'. injection E' as <-. lia.
  Qed.

  (** edges out of the vertices that are not settled *)
  Definition degree (u : Z) : nat := length (zn [] adj u).
  Definition pending (S : list Z) : nat := list_sum (map degree (filter (fun u => negb (zmem u S)) (zrange 0 V))).
  Lemma pending_settle S u : 0 <= u < V -> ~ In u S -> (pending S = degree u + pending (u :: S))%nat.
  Proof.
    intros Hu Hn. unfold pending. assert (HI : In u (zrange 0 V)) by (apply zrange_in; lia). assert (ND : NoDup (zrange 0 V)). { unfold zrange. apply FinFun.Injective_map_NoDup; [intros a b; lia|apply seq_NoDup]. }
    induction (zrange 0 V) as [|a l IH]; [destruct HI|]. inversion ND; subst. cbn [filter]. destruct HI as [->|HI].
    - assert (Z0 : zmem u S = false) by (destruct (zmem_spec u S) as [X|X]; [exfalso; exact (Hn X)|reflexivity]). rewrite Z0. replace (zmem u (u :: S)) with true by (cbn [zmem existsb]; rewrite Z.eqb_refl; reflexivity). cbn [negb map list_sum fold_right]. change (fold_right Nat.add 0%nat) with list_sum.
      f_equal. f_equal. f_equal. apply filter_ext_in. intros y Hy. cbn [zmem existsb]. destruct (Z.eqb_spec y u) as [->|]; [contradiction|reflexivity].
    - assert (X : zmem a (u :: S) = zmem a S). { cbn [zmem existsb]. destruct (Z.eqb_spec a u) as [->|]; [contradiction|reflexivity]. } rewrite X. specialize (IH HI H2). destruct (negb (zmem a S)); [|exact IH]. cbn [map list_sum fold_right]. change (fold_right Nat.add 0%nat) with list_sum. lia.
  Qed.
  Lemma pending_all : (pending [] = list_sum (map degree (zrange 0 V)))%nat.
  Proof. unfold pending. f_equal. f_equal. induction (zrange 0 V) as [|a l IH]; [reflexivity|]. cbn [filter zmem existsb negb]. f_equal. exact IH. Qed.

  Definition outcome (r : list (option Z) * list Z) : Prop := exists S, rec S (relaxed S) (fst r) (snd r) [].
  Lemma dij_loop_ok fuel dist pred pq S : rec S (relaxed S) dist pred pq -> (length pq + pending S < fuel)%nat -> wp (dij_loop fuel adj dist pred pq) outcome.
  Proof.
    revert dist pred pq S. unfold dij_loop. induction fuel as [|f IH]; intros dist pred pq S R Hf; [lia|]. cbn [while_loop]. destruct pq as [|[x u] pq].
    - exists S. exact R.
    - destruct (r_pq _ _ _ _ _ R x u (or_introl eq_refl)) as (Hu & d' & E & L). rewrite (cget_ok _ None) by (rewrite (r_len _ _ _ _ _ R); exact Hu). cbn [bind]. rewrite E. cbn [dlt].
      destruct (Z.eq_dec x d') as [<-|Hn].
      + replace (x <? x) with false by lia. rewrite Z.eqb_refl. cbn [negb andb]. rewrite (cget_ok _ []) by (rewrite HA; exact Hu). cbn [bind].
        destruct (rec_settle S _ dist pred pq u x R E) as (NuS & R' & HT & HQ); [intros y e [X _]; exact X|]. assert (PS := pending_settle S u Hu NuS).
        assert (IN : wp (forM (zn [] adj u) (fun '(v_id, weight) '(dist, pred, pq) =>
          du <- cget dist u ;;
          match du with
          | None => Ret (dist, pred, pq)
          | Some x =>
            dv <- cget dist v_id ;;
            if dlt (x + weight) dv then
              dist <- cset dist v_id (Some (x + weight)) ;;
              pred <- cset pred v_id u ;;
              Ret (dist, pred, pq_push (x + weight, v_id) pq)
            else Ret (dist, pred, pq)
          end) (dist, pred, pq)) (fun '(dist, pred, pq') => rec (u :: S) (relaxed (u :: S)) dist pred pq' /\ (length pq' <= length pq + degree u)%nat)).
        { eapply wp_mono; [apply (wp_forM _ _ (zn [] adj u) _ (fun pre '(dist, pred, pq') => rec (u :: S) (fun y e => relaxed S y e \/ (y = u /\ In e pre)) dist pred pq' /\ (length pq' <= length pq + length pre)%nat /\
             (forall y, In y (u :: S) -> exists dy, dist!y = Some dy /\ dy <= x) /\ (forall d y, In (d, y) pq' -> x <= d) /\ dist!u = Some x))|].
          - intros pre [v w] post [[di pr] q] EL (RR & LL & HT' & HQ' & Hux). assert (He : In (v, w) (zn [] adj u)) by (rewrite EL; apply in_or_app; right; left; reflexivity). destruct (HW u v w Hu He) as [Hv Hw].
            rewrite (cget_ok _ None) by (rewrite (r_len _ _ _ _ _ RR); exact Hu). cbn [bind]. rewrite Hux. rewrite (cget_ok _ None) by (rewrite (r_len _ _ _ _ _ RR); exact Hv). cbn [bind].
            assert (W : forall y e, (relaxed S y e \/ y = u /\ In e (pre ++ [(v, w)])) -> (relaxed S y e \/ y = u /\ In e pre) \/ y = u /\ e = (v, w)). { intros y e [X|[X Y]]; [tauto|]. apply in_app_or in Y as [Y|[Y|[]]]; [tauto|]. right. auto. }
            destruct (dlt (x + w) (di!v)) eqn:Q.
            + rewrite cset_ok by (rewrite (r_len _ _ _ _ _ RR); exact Hv). cbn [bind]. rewrite cset_ok by (rewrite (r_lenp _ _ _ _ _ RR); exact Hv). cbn [bind wp].
              destruct (rec_edge (u :: S) _ di pr q u x v w RR (or_introl eq_refl) Hux He HT' HQ' Q) as (A & B & C & D). split; [eapply rec_weaken; [exact W|exact A]|]. split; [rewrite pq_push_len, app_length; cbn [length]; lia|]. auto.
            + cbn [wp]. split; [eapply rec_weaken; [exact W|]; apply rec_skip with (x := x); auto; left; reflexivity|]. split; [rewrite app_length; lia|]. auto.
          - split; [eapply rec_weaken; [|exact R']; intros y e [X|[_ []]]; exact X|]. split; [cbn [length]; lia|]. auto.
          - intros [[di pr] q] (RR & LL & _). split; [|exact LL]. eapply rec_weaken; [|exact RR]. intros y e [[<-|X] Y]; [right; auto|left; split; assumption]. }
        apply wp_ex in IN as ([[di pr] q] & -> & RR & LL). cbn [bind]. apply (IH di pr q (u :: S) RR). cbn [length] in Hf. lia.
      + replace (x <? d') with false by lia. replace (x =? d') with false by lia. cbn [negb andb]. apply (IH dist pred pq S); [apply (rec_stale S _ dist pred pq u x d' R E ltac:(lia))|]. cbn [length] in Hf. lia.
  Qed.
  Lemma rec_start : rec [] (relaxed []) (zupd (repeat None (Z.to_nat V)) s (Some 0)) (repeat (-1) (Z.to_nat V)) [(0, s)].
  Proof.
    assert (L1 : len (repeat (@None Z) (Z.to_nat V)) = V) by (rewrite len_repeat; lia).
    assert (E : forall v, 0 <= v < V -> (zupd (repeat None (Z.to_nat V)) s (Some 0))!v = if v =? s then Some 0 else None).
    { intros v Hv. destruct (Z.eqb_spec v s) as [->|]; [apply zn_zupd_eq; lia|]. rewrite zn_zupd_ne by lia. apply zn_repeat. lia. }
    constructor.
    - rewrite len_zupd. exact L1.
    - rewrite len_repeat. lia.
    - intros v d Hv. rewrite E by exact Hv. destruct (Z.eqb_spec v s) as [->|]; [intros [= <-]; constructor|discriminate].
    - rewrite E by exact Hs. rewrite Z.eqb_refl. reflexivity.
    - intros d v [[= <- <-]|[]]. split; [exact Hs|]. exists 0. rewrite E by exact Hs. rewrite Z.eqb_refl. split; [reflexivity|lia].
    - constructor; [intros []|constructor].
    - repeat constructor.
    - intros x [].
    - intros v d Hv. rewrite E by exact Hv. destruct (Z.eqb_spec v s) as [->|]; [intros [= <-] _; left; reflexivity|discriminate].
    - intros x v w [[] _].
    - constructor.
    - intros v Hv. left. rewrite zn_repeat by lia. split; [reflexivity|]. rewrite E by exact Hv. destruct (Z.eqb_spec v s); auto.
  Qed.

  (** what the final vectors say *)
  Section O.
    Context (S : list Z) (dist : list (option Z)) (pred : list Z) (R : rec S (relaxed S) dist pred []).
    Lemma out_settled v d : 0 <= v < V -> dist!v = Some d -> In v S.
    Proof. intros Hv E. destruct (in_dec Z.eq_dec v S) as [|N]; [assumption|]. destruct (r_un _ _ _ _ _ R v d Hv E N). Qed.
    Lemma out_bound v w : iw v w -> exists d, dist!v = Some d /\ d <= w.
    Proof.
      intros H. induction H as [|u d v w H (du & E & L) He]; [exists 0; split; [apply (r_src _ _ _ _ _ R)|lia]|].
      destruct (r_rel _ _ _ _ _ R u v w) as (_ & _ & dx & dv & E1 & E2 & L'); [split; [|exact He]; apply (out_settled u du); [apply (iw_ok u d H)|exact E]|]. exists dv. split; [exact E2|]. rewrite E in E1. injection E1 as <-. lia.
    Qed.
    Lemma out_dist v : 0 <= v < V -> match dist!v with Some d => iw v d /\ forall w, iw v w -> d <= w | None => forall w, ~ iw v w end.
    Proof.
      intros Hv. destruct (dist!v) as [d|] eqn:E.
      - split; [apply (r_walk _ _ _ _ _ R v d Hv E)|]. intros w H. destruct (out_bound v w H) as (d' & E' & L). rewrite E in E'. injection E' as <-. exact L.
      - intros w H. destruct (out_bound v w H) as (d' & E' & L). congruence.
    Qed.
    Inductive chain : Z -> Prop := chain_here : chain s | chain_step v : zn (-1) pred v <> -1 -> chain (zn (-1) pred v) -> chain v.
    Lemma out_chain v d : 0 <= v < V -> dist!v = Some d -> chain v.
    Proof.
      intros Hv E. assert (HS := out_settled v d Hv E). assert (A : forall S2 S1, S = S1 ++ S2 -> forall x, In x S2 -> chain x); [|apply (A S []); auto].
      induction S2 as [|y S2 IH]; intros S1 ES x; [intros []|]. intros [<-|Hx]; [|apply (IH (S1 ++ [y])); [rewrite <- app_assoc; exact ES|exact Hx]].
      assert (HyS : In y S) by (rewrite ES; apply in_or_app; right; left; reflexivity). destruct (r_set _ _ _ _ _ R y HyS) as (Hy & dy & Ey & _). destruct (r_pred _ _ _ _ _ R y Hy) as [(_ & [->|X])|(N & B & C & _)]; [constructor|congruence|].
      destruct (C HyS) as (T1 & T2 & ET & HT). assert (EQ : T1 = S1 /\ T2 = S2).
      { assert (ND := r_ndS _ _ _ _ _ R). assert (EE : S1 ++ y :: S2 = T1 ++ y :: T2) by congruence. rewrite ES in ND. clear - ND EE. revert T1 EE. induction S1 as [|a S1 IH]; intros [|b T1] EE; cbn [app] in *.
        - injection EE as <-. auto.
        - injection EE as <- EE. exfalso. rewrite EE in ND. inversion ND as [|? ? N1 N2]. apply N1. apply in_or_app. right. left. reflexivity.
        - injection EE as -> EE. exfalso. inversion ND as [|? ? N1 N2]. apply N1. apply in_or_app. right. left. reflexivity.
        - injection EE as <- EE. inversion ND as [|? ? N1 N2]. destruct (IH N2 T1 EE) as [-> ->]. auto. }
      destruct EQ as [-> ->]. apply chain_step; [|apply (IH (S1 ++ [y])); [rewrite <- app_assoc; exact ES|exact HT]].
      assert (0 <= zn (-1) pred y < V) by (apply (r_set _ _ _ _ _ R _ B)). lia.
    Qed.
  End O.
End D.
