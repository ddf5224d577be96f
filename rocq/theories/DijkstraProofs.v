(** Invariants of dijkstra (C79). *)
From Coq Require Import Strings.String Strings.Ascii.
From Verif Require Import Base DsfModel GraphModel GraphSpec GraphDict GraphProofs PathModel PathProofs BinomialModel BinomialSpec BinomialProofs SccModel TarjanProofs KosarajuProofs FlowSpec DijkstraSpec DijkstraModel.
Import List.

Definition dd (st : dj) (v : string) : option Z := match sdget (d_dist st) v with Some x => x | None => None end.
Definition vs (st : dj) (v : string) : bool := is_visited (d_vis st) v.
Definition elems (st : dj) : list (Z * string) := bh_elems (d_pq st).
Definition nvis (st : dj) (V : list string) : nat := length (filter (vs st) V).

Lemma filter_add (f f' : string -> bool) V u : In u V -> NoDup V -> f u = false -> f' u = true -> (forall x, x <> u -> f' x = f x) -> length (filter f' V) = S (length (filter f V)).
Proof.
  intros H N F F' E. induction V as [|a V IH]; [destruct H|]. inversion N as [|? ? Na NV]; subst. cbn [filter]. destruct H as [->|H].
  - rewrite F, F'. cbn [length]. f_equal. f_equal. apply filter_ext_in. intros x Hx. apply E. intros ->. contradiction.
  - assert (a <> u) by (intros ->; contradiction). rewrite (E a) by assumption. destruct (f a); cbn [length]; rewrite IH by assumption; reflexivity.
Qed.
Lemma filter_len_le (f : string -> bool) V : (length (filter f V) <= length V)%nat.
Proof. induction V as [|a V IH]; cbn; [lia|]. destruct (f a); cbn; lia. Qed.

Section D.
  Context (g : gview) (G : dg) (HG : represents g G) (HC : represents_costs g G) (HN : network G) (s : string) (Hs : In s (fst G)).
  Notation V := (fst G). Notation inf := (inf_key g).

  Record B (st : dj) : Prop := {
    b_dk : forall v, In v V -> exists x, sdget (d_dist st) v = Some x;
    b_vk : forall v, In v V -> exists x, sdget (d_vis st) v = Some x;
    b_ok : bh_ok (d_pq st);
    b_dom : forall k v, In (k, v) (elems st) -> In v V;
    b_kd : forall k v, In (k, v) (elems st) -> k = inf \/ exists d, dd st v = Some d /\ d <= k;
    b_walk : forall v d, dd st v = Some d -> In v V /\ exists n, cwalk G s n d v /\ (n + (if vs st v then 1 else 0) <= nvis st V)%nat;
    b_src : dd st s = Some 0;
    b_in : forall v d, vs st v = false -> dd st v = Some d -> In (d, v) (elems st);
    b_pred : forall v, In v V -> exists p, sdget (d_pred st) v = Some p /\ match p with
               | Some p => v <> s /\ vs st p = true /\ exists c dp, has_cost G p v c /\ dd st p = Some dp /\ dd st v = Some (dp + c)
               | None => v = s \/ dd st v = None end;
    b_exact : forall u d, vs st u = true -> dd st u = Some d -> least_cost G s u d;
    b_rel : forall u v c d, vs st u = true -> dd st u = Some d -> has_cost G u v c -> exists d', dd st v = Some d' /\ d' <= d + c;
    b_mono : forall u d k x, vs st u = true -> dd st u = Some d -> In (k, x) (elems st) -> d <= k;
    b_inf : forall v k x, vs st v = true -> dd st v = None -> In (k, x) (elems st) -> inf <= k
  }.

  Lemma cw_nonneg a n w b : cwalk G a n w b -> 0 <= w.
  Proof. induction 1 as [|n w u v c K IH Hc]; [lia|]. apply (proj2 HN) in Hc. lia. Qed.
  Lemma cw_bound a n w b : cwalk G a n w b -> w <= Z.of_nat n * W g.
  Proof. induction 1 as [|n w u v c K IH Hc]; [lia|]. assert (X := cost_le g G HC u v c Hc). assert (Y := proj2 HN u v c Hc). nia. Qed.
  Lemma dd_bound st v d : B st -> dd st v = Some d -> 0 <= d < inf.
  Proof.
    intros H E. destruct (b_walk _ H v d E) as (_ & n & K & L). split; [eapply cw_nonneg; exact K|]. apply cw_bound in K. assert (X := filter_len_le (vs st) V). fold (nvis st V) in X.
    unfold inf_key. rewrite (proj1 HG). fold (W g). assert (Y := wsum_nonneg g). unfold len. nia.
  Qed.

  (** a walk ends no earlier than the least key *)
  Lemma cut_walk st : B st -> forall kmin, (forall k x, In (k, x) (elems st) -> kmin <= k) ->
    forall n w v, cwalk G s n w v -> (exists d, dd st v = Some d /\ vs st v = true /\ d <= w) \/ kmin <= w.
  Proof.
    intros H kmin Hk n w v K. induction K as [|n w u v c K IH Hc].
    - destruct (vs st s) eqn:E; [left; exists 0; split; [apply H|]; split; [reflexivity|lia]|]. right. apply (Hk 0 s). apply (b_in _ H); [exact E|apply H].
    - assert (Pc := proj2 HN u v c Hc). destruct IH as [(d & D1 & D2 & D3)|IH]; [|right; lia].
      destruct (b_rel _ H u v c d D2 D1 Hc) as (d' & E1 & E2). destruct (vs st v) eqn:E.
      + left. exists d'. split; [exact E1|]. split; [reflexivity|lia].
      + right. assert (X := Hk d' v (b_in _ H v d' E E1)). lia.
  Qed.

  Lemma pop_ok pq : bh_ok pq -> bh_elems pq <> [] ->
    wp (dj_pop pq) (fun '(u, pq') => bh_ok pq' /\ exists k, Permutation (bh_elems pq) ((k, u) :: bh_elems pq') /\ forall k' x, In (k', x) (bh_elems pq) -> k <= k').
  Proof.
    intros O NE. assert (NP : pq <> []) by (intros ->; apply NE; reflexivity). destruct (delete_min_ok pq O NP) as (m & i & h' & E1 & E2 & O' & P & L).
    unfold dj_pop. rewrite E1, E2. cbn [bind wp]. split; [exact O'|]. exists (b_key m). split; [exact P|]. intros k' x Hx. apply (L (k', x) Hx).
  Qed.

  Lemma edge_get u v : In u V -> match sdget (gv_weights g) (ekey u v) with Some e => exists c, e = (u, v, c) /\ has_cost G u v c | None => forall c, ~ has_cost G u v c end.
  Proof.
    intros Hu. apply (wrep_get (gv_weights g) G u v HC (rep_ok g G HG)). apply ordinary_no_us. destruct HG as (_ & _ & O & _). rewrite Forall_forall in O. auto.
  Qed.

  (** nothing to do for a vertex without distance or whose edges are relaxed *)
  Lemma relax_idle st u v : In u V -> In v V -> (forall v, In v V -> exists x, sdget (d_dist st) v = Some x) -> (forall v, In v V -> exists x, sdget (d_vis st) v = Some x) ->
    (forall d c, dd st u = Some d -> has_cost G u v c -> exists d', dd st v = Some d' /\ d' <= d + c) -> dj_relax g u v st = Ret st.
  Proof.
    intros Hu Hv DK VK H. unfold dj_relax. assert (E := edge_get u v Hu). destruct (sdget (gv_weights g) (ekey u v)) as [e|]; [|reflexivity]. destruct E as (c & -> & Hc).
    change (e_val (u, v, c)) with c. destruct (0 <=? c); [|reflexivity]. unfold dgetE. destruct (VK v Hv) as (x & ->). cbn [bind]. destruct x; [reflexivity|]. cbn [negb].
    unfold dd in H. destruct (DK v Hv) as (dv & Ev), (DK u Hu) as (du & Eu). rewrite Ev, Eu in *. cbn [bind]. destruct du as [du|]; [|reflexivity].
    destruct (H du c eq_refl Hc) as (d' & E & L). subst dv. cbn [oadd oltb]. destruct (Z.ltb_spec (du + c) d'); [lia|reflexivity].
  Qed.
  Lemma relax_all_idle st u l : In u V -> (forall v, In v l -> In v V) -> (forall v, In v V -> exists x, sdget (d_dist st) v = Some x) -> (forall v, In v V -> exists x, sdget (d_vis st) v = Some x) ->
    (forall v d c, In v V -> dd st u = Some d -> has_cost G u v c -> exists d', dd st v = Some d' /\ d' <= d + c) -> forM l (dj_relax g u) st = Ret st.
  Proof.
    intros Hu Hl DK VK H. induction l as [|v l IH]; [reflexivity|]. cbn [forM]. rewrite relax_idle; auto; [|apply Hl; left; reflexivity|intros; apply H; auto; apply Hl; left; reflexivity].
    cbn [bind]. apply IH. intros; apply Hl; right; assumption.
  Qed.

  (** what the loop over the vertices does for a vertex [u] at distance [d] *)
  Definition improves (st : dj) (u : string) (d : Z) (v : string) (k : Z) : Prop :=
    vs st v = false /\ exists c, has_cost G u v c /\ k = d + c /\ oltb (Some (d + c)) (dd st v) = true.
  Record relaxed (st : dj) (u : string) (d : Z) (pre : list string) (pushed : list (Z * string)) (st' : dj) : Prop := {
    r_dk : forall v, In v V -> exists x, sdget (d_dist st') v = Some x;
    r_vis : d_vis st' = d_vis st;
    r_ok : bh_ok (d_pq st');
    r_perm : Permutation (elems st') (pushed ++ elems st);
    r_push : forall k v, In (k, v) pushed <-> In v pre /\ improves st u d v k;
    r_nd : NoDup (map snd pushed);
    r_new : forall k v, In (k, v) pushed -> dd st' v = Some k /\ sdget (d_pred st') v = Some (Some u);
    r_old : forall v, ~ In v (map snd pushed) -> dd st' v = dd st v /\ sdget (d_pred st') v = sdget (d_pred st) v
  }.
  Lemma improves_fun st u d v k k' : improves st u d v k -> improves st u d v k' -> k = k'.
  Proof. intros (_ & c & A & -> & _) (_ & c' & A' & -> & _). rewrite (cost_fun G u v c c' (rep_ok g G HG) A A'). reflexivity. Qed.

  Lemma relax_loop st u d : In u V -> (forall v, In v V -> exists x, sdget (d_dist st) v = Some x) -> (forall v, In v V -> exists x, sdget (d_vis st) v = Some x) -> bh_ok (d_pq st) ->
    dd st u = Some d -> vs st u = true -> wp (forM V (dj_relax g u) st) (fun st' => exists pushed, relaxed st u d V pushed st').
  Proof.
    intros Hu DK VK OK Du Vu. assert (NV := proj1 (proj2 HG)).
    apply (wp_forM _ _ V (dj_relax g u) (fun pre st' => exists pushed, relaxed st u d pre pushed st')).
    - intros pre b post st' Epre (pushed & H). assert (Hb : In b V) by (rewrite Epre; apply in_elt).
      assert (Nb : ~ In b pre). { rewrite Epre in NV. apply NoDup_remove_2 in NV. rewrite in_app_iff in NV. tauto. }
      assert (Nbp : ~ In b (map snd pushed)). { intros X. apply in_map_iff in X as ([k x] & E & X). cbn in E. subst x. apply (r_push _ _ _ _ _ _ H) in X. tauto. }
      assert (Skip : (forall k, ~ improves st u d b k) -> exists pushed, relaxed st u d (pre ++ [b]) pushed st').
      { intros X. exists pushed. destruct H. split; auto. intros k v. rewrite r_push0, in_app_iff. cbn [In]. split; [tauto|]. intros ([Y|[->|[]]] & Z); [auto|]. apply X in Z. contradiction. }
      unfold dj_relax. assert (E := edge_get u b Hu). destruct (sdget (gv_weights g) (ekey u b)) as [e|]; [|cbn [wp]; apply Skip; intros k (_ & c & X & _); exact (E c X)]. destruct E as (c & -> & Hc).
      change (e_val (u, b, c)) with c. assert (Pc := proj2 HN u b c Hc). destruct (Z.leb_spec 0 c); [|lia]. rewrite (r_vis _ _ _ _ _ _ H). unfold dgetE at 1. destruct (VK b Hb) as (x & Ex). rewrite Ex. cbn [bind].
      assert (Vb : vs st b = x) by (unfold vs, is_visited; rewrite Ex; reflexivity). destruct x; cbn [negb]; [cbn [wp]; apply Skip; intros k (X & _); congruence|].
      destruct (r_dk _ _ _ _ _ _ H b Hb) as (db & Eb), (r_dk _ _ _ _ _ _ H u Hu) as (du & Eu). unfold dgetE. rewrite Eb, Eu. cbn [bind].
      assert (Nu : ~ In u (map snd pushed)). { intros X. apply in_map_iff in X as ([k x] & E & X). cbn in E. subst x. apply (r_push _ _ _ _ _ _ H) in X. destruct X as (_ & X & _). congruence. }
      assert (Eu' := proj1 (r_old _ _ _ _ _ _ H u Nu)). assert (Eb' := proj1 (r_old _ _ _ _ _ _ H b Nbp)). unfold dd at 1 in Eu'. unfold dd at 1 in Eb'. rewrite Eu in Eu'. rewrite Eb in Eb'. rewrite Du in Eu'. subst du db. cbn [oadd].
      destruct (oltb (Some (d + c)) (dd st b)) eqn:EL; [|cbn [wp]; apply Skip; intros k (_ & c' & X & _ & Y); rewrite (cost_fun G u b c' c (rep_ok g G HG) X Hc) in Y; congruence].
      apply wp_bind. unfold dj_push. cbn [key_of]. eapply wp_mono; [apply (BinomialProofs.insert_ok _ (d + c) b (r_ok _ _ _ _ _ _ H))|]. intros pq (O' & P'). cbn [wp].
      exists ((d + c, b) :: pushed). split; cbn [d_dist d_vis d_pq d_pred].
      + intros v Hv. rewrite sget_set. destruct (String.eqb v b); [eauto|]. apply (r_dk _ _ _ _ _ _ H v Hv).
      + reflexivity.
      + exact O'.
      + unfold elems. cbn [d_pq]. rewrite <- P'. cbn [app]. constructor. apply (r_perm _ _ _ _ _ _ H).
      + intros k v. cbn [In]. rewrite (r_push _ _ _ _ _ _ H), in_app_iff. cbn [In]. split.
        * intros [X|X]; [injection X as <- <-|tauto]. split; [auto|]. split; [exact Vb|]. exists c. auto.
        * intros ([X|[->|[]]] & Y); [auto|]. left. f_equal. eapply improves_fun; [|exact Y]. split; [exact Vb|]. exists c. auto.
      + cbn [map snd]. constructor; [exact Nbp|apply H].
      + intros k v [X|X].
        * injection X as <- <-. unfold dd. cbn [d_dist]. rewrite !sget_set_eq. auto.
        * assert (v <> b). { intros ->. apply Nbp. apply (in_map snd) in X. exact X. } unfold dd. cbn [d_dist]. rewrite !sget_set_ne by assumption. apply (r_new _ _ _ _ _ _ H k v X).
      + intros v Hv. cbn [map snd In] in Hv. unfold dd. cbn [d_dist]. rewrite !sget_set_ne by (intros ->; apply Hv; auto). apply (r_old _ _ _ _ _ _ H v). tauto.
    - exists []. split; auto; cbn; try tauto. constructor.
  Qed.

  (** one round *)
  Definition popped (st : dj) (u : string) (pq : bheap string) : dj := mkdj (d_dist st) (d_pred st) (sdset (d_vis st) u true) pq.
  Lemma vs_popped st u pq x : vs (popped st u pq) x = if String.eqb x u then true else vs st x.
  Proof. unfold vs, popped. cbn [d_vis]. apply on_set. Qed.
  Inductive round_result (st st' : dj) : Prop :=
  | round_idle k u pq : Permutation (elems st) ((k, u) :: bh_elems pq) -> (forall k' x, In (k', x) (elems st) -> k <= k') -> (vs st u = true \/ dd st u = None) -> st' = popped st u pq -> round_result st st'
  | round_work d u pq pushed : Permutation (elems st) ((d, u) :: bh_elems pq) -> (forall k' x, In (k', x) (elems st) -> d <= k') -> vs st u = false -> dd st u = Some d -> relaxed (popped st u pq) u d V pushed st' -> round_result st st'.

  Lemma round_ok st : B st -> elems st <> [] -> wp (dj_round g st) (fun st' => B st' /\ round_result st st').
  Proof.
    intros H NE. assert (NV := proj1 (proj2 HG)). unfold dj_round. apply wp_bind. eapply wp_mono; [apply (pop_ok _ (b_ok _ H) NE)|]. intros [u pq] (OK & k & P & L). rewrite (proj1 HG).
    fold (elems st) in P, L. fold (popped st u pq). set (st1 := popped st u pq).
    assert (In0 : forall e, In e (elems st) <-> e = (k, u) \/ In e (bh_elems pq)). { intros e. rewrite P. cbn [In]. split; intros [X|X]; auto. }
    assert (Hku : In (k, u) (elems st)) by (apply In0; auto). assert (HuV := b_dom _ H k u Hku). assert (V1 := vs_popped st u pq). fold st1 in V1.
    assert (VK1 : forall v, In v V -> exists x, sdget (d_vis st1) v = Some x). { intros v Hv. cbn [st1 popped d_vis]. rewrite sget_set. destruct (String.eqb v u); [eauto|]. apply (b_vk _ H v Hv). }
    assert (D1 : forall v, dd st1 v = dd st v) by reflexivity.
    destruct (vs st u || match dd st u with None => true | _ => false end) eqn:EC.
    - assert (ID : vs st u = true \/ dd st u = None). { apply orb_true_iff in EC as [EC|EC]; [auto|]. right. destruct (dd st u); [discriminate|reflexivity]. }
      assert (EX : forM V (dj_relax g u) st1 = Ret st1).
      { apply relax_all_idle; auto; [apply (b_dk _ H)|]. intros v d c Hv Ed Hc. rewrite !D1 in *. destruct ID as [ID|ID]; [|congruence]. apply (b_rel _ H u v c d ID Ed Hc). }
      rewrite EX. cbn [wp]. split; [|eapply round_idle; eauto].
      assert (NM : (nvis st V <= nvis st1 V)%nat). { unfold nvis. destruct (vs st u) eqn:Eu; [|rewrite (filter_add (vs st) (vs st1) V u HuV NV Eu); [lia|rewrite V1, String.eqb_refl; reflexivity|intros x Hx; rewrite V1; destruct (SE x u); congruence]].
        rewrite (filter_ext (vs st1) (vs st)); [lia|]. intros x. rewrite V1. destruct (SE x u) as [->|]; congruence. }
      split; auto; cbn [st1 popped d_dist d_pq]; try (intros; rewrite ?D1).
      + apply (b_dk _ H v). assumption.
      + apply (b_dom _ H k0 v). apply In0. auto.
      + apply (b_kd _ H k0 v). apply In0. auto.
      + destruct (b_walk _ H v d H0) as (X & n & K & Ln). split; [exact X|]. exists n. split; [exact K|]. rewrite V1. destruct (SE v u) as [->|]; [|lia]. destruct ID as [ID|ID]; [rewrite ID in Ln; lia|congruence].
      + apply H.
      + rewrite V1 in H0. destruct (SE v u) as [->|Hv]; [discriminate|]. assert (X := b_in _ H v d H0 H1). apply In0 in X as [X|X]; [congruence|exact X].
      + destruct (b_pred _ H v H0) as (p & E & X). exists p. split; [exact E|]. destruct p as [p|]; [|exact X]. destruct X as (X1 & X2 & X3). split; [exact X1|]. split; [|exact X3]. rewrite V1, X2. destruct (String.eqb p u); reflexivity.
      + rewrite V1 in H0. rewrite D1 in H1. destruct (SE u0 u) as [->|Hx]; [destruct ID as [ID|ID]; [apply (b_exact _ H); assumption|congruence]|apply (b_exact _ H); assumption].
      + rewrite V1 in H0. rewrite D1 in H1. destruct (SE u0 u) as [->|Hx]; [destruct ID as [ID|ID]; [eapply (b_rel _ H); eassumption|congruence]|eapply (b_rel _ H); eassumption].
      + rewrite V1 in H0. rewrite D1 in H1. assert (X : In (k0, x) (elems st)) by (apply In0; auto). destruct (SE u0 u) as [->|Hx]; [destruct ID as [ID|ID]; [eapply (b_mono _ H); eassumption|congruence]|eapply (b_mono _ H); eassumption].
      + rewrite V1 in H0. rewrite D1 in H1. assert (X : In (k0, x) (elems st)) by (apply In0; auto). destruct (SE v u) as [->|Hx]; [|eapply (b_inf _ H); eassumption].
        destruct (b_kd _ H k u Hku) as [->|(d & Y & _)]; [apply (L _ _ X)|congruence].
    - apply orb_false_iff in EC as (Vu & EC). destruct (dd st u) as [d|] eqn:Du; [|discriminate].
      assert (Ed : k = d). { assert (A := L _ _ (b_in _ H u d Vu Du)). destruct (b_kd _ H k u Hku) as [->|(d' & X & Y)]; [assert (Z := dd_bound st u d H Du); lia|]. rewrite Du in X. injection X as <-. lia. } subst k.
      assert (Bd := dd_bound st u d H Du).
      eapply wp_mono; [apply (relax_loop st1 u d HuV (b_dk _ H) VK1 OK Du); rewrite V1, String.eqb_refl; reflexivity|]. intros st' (pushed & RX). split; [|eapply round_work; eauto].
      assert (V' : forall x, vs st' x = if String.eqb x u then true else vs st x). { intros x. rewrite <- V1. unfold vs. rewrite (r_vis _ _ _ _ _ _ RX). reflexivity. }
      assert (NV' : nvis st' V = S (nvis st V)). { unfold nvis. apply (filter_add (vs st) (vs st') V u); auto; [rewrite V', String.eqb_refl; reflexivity|intros x Hx; rewrite V'; destruct (SE x u); congruence]. }
      assert (El : forall e, In e (elems st') <-> In e pushed \/ In e (bh_elems pq)). { intros e. rewrite (r_perm _ _ _ _ _ _ RX), in_app_iff. reflexivity. }
      assert (CS : forall v, (exists k, In (k, v) pushed /\ dd st' v = Some k /\ sdget (d_pred st') v = Some (Some u) /\ vs st' v = false /\ vs st v = false /\ v <> u /\ exists c, has_cost G u v c /\ k = d + c /\ oltb (Some k) (dd st v) = true) \/
                              (~ In v (map snd pushed) /\ dd st' v = dd st v /\ sdget (d_pred st') v = sdget (d_pred st) v)).
      { intros v. destruct (in_dec SD v (map snd pushed)) as [I|I]; [|right; split; [exact I|apply (r_old _ _ _ _ _ _ RX v I)]]. left. apply in_map_iff in I as ([k x] & E & I). cbn in E. subst x. exists k.
        destruct (r_new _ _ _ _ _ _ RX k v I) as (N1 & N2). assert (I' := I). apply (r_push _ _ _ _ _ _ RX) in I' as (_ & X1 & c & X2 & -> & X3). rewrite V1 in X1. destruct (SE v u) as [->|Hv]; [discriminate|].
        repeat (split; [assumption|]). split; [rewrite V'; destruct (SE v u); congruence|]. split; [exact X1|]. split; [exact Hv|]. exists c. auto. }
      assert (Keep : forall x, vs st x = true -> dd st' x = dd st x). { intros x Hx. destruct (CS x) as [(k & _ & _ & _ & _ & X & _)|(_ & X & _)]; [congruence|exact X]. }
      assert (Ku : dd st' u = Some d). { destruct (CS u) as [(k & _ & _ & _ & _ & _ & X & _)|(_ & X & _)]; congruence. }
      assert (Dn : forall v d0, dd st v = Some d0 -> exists d1, dd st' v = Some d1 /\ d1 <= d0). { intros v d0 E. destruct (CS v) as [(k & _ & -> & _ & _ & _ & _ & c & _ & _ & X)|(_ & -> & _)]; [|exists d0; split; [exact E|lia]]. rewrite E in X. cbn in X. apply Z.ltb_lt in X. exists k. split; [reflexivity|lia]. }
      split.
      + apply RX.
      + intros v Hv. rewrite (r_vis _ _ _ _ _ _ RX). apply VK1. exact Hv.
      + apply RX.
      + intros k v Hk. apply El in Hk as [Hk|Hk]; [apply (r_push _ _ _ _ _ _ RX) in Hk; tauto|apply (b_dom _ H k v), In0; auto].
      + intros k v Hk. apply El in Hk as [Hk|Hk]; [right; exists k; split; [apply (r_new _ _ _ _ _ _ RX k v Hk)|lia]|].
        destruct (b_kd _ H k v) as [X|(d0 & X & Y)]; [apply In0; auto|auto|]. right. destruct (Dn v d0 X) as (d1 & Z1 & Z2). exists d1. split; [exact Z1|lia].
      + intros v d0 E. destruct (CS v) as [(k & _ & E1 & _ & E2 & _ & _ & c & Hc & -> & _)|(_ & E1 & _)].
        * rewrite E in E1. injection E1 as ->. destruct (b_walk _ H u d Du) as (_ & n & K & Ln). split; [apply (cost_dom g G HG u v c Hc)|]. exists (S n). split; [econstructor; eassumption|]. rewrite E2, NV'. lia.
        * rewrite E in E1. symmetry in E1. destruct (b_walk _ H v d0 E1) as (X & n & K & Ln). split; [exact X|]. exists n. split; [exact K|]. rewrite V', NV'. destruct (SE v u) as [->|]; [|lia]. rewrite Vu in Ln. lia.
      + destruct (CS s) as [(k & _ & _ & _ & _ & _ & _ & c & Hc & -> & X)|(_ & -> & _)]; [|apply H]. rewrite (b_src _ H) in X. cbn in X. apply Z.ltb_lt in X. assert (Y := proj2 HN u s c Hc). lia.
      + intros v d0 Ev E. apply El. destruct (CS v) as [(k & I & E1 & _)|(_ & E1 & _)]; [left; rewrite E in E1; injection E1 as ->; exact I|]. right. rewrite V' in Ev. destruct (SE v u) as [->|Hv]; [discriminate|].
        rewrite E in E1. assert (X := b_in _ H v d0 Ev (eq_sym E1)). apply In0 in X as [X|X]; [congruence|exact X].
      + intros v Hv. destruct (CS v) as [(k & _ & E1 & E2 & _ & _ & _ & c & Hc & -> & X)|(_ & E1 & E2)].
        * exists (Some u). split; [exact E2|]. split; [|split; [rewrite V', String.eqb_refl; reflexivity|exists c, d; auto]]. intros ->. rewrite (b_src _ H) in X. cbn in X. apply Z.ltb_lt in X. assert (Y := proj2 HN u s c Hc). lia.
        * destruct (b_pred _ H v Hv) as (p & E & X). exists p. rewrite E2. split; [exact E|]. destruct p as [p|]; [|rewrite E1; exact X]. destruct X as (X1 & X2 & c & dp & X3 & X4 & X5). split; [exact X1|].
          split; [rewrite V', X2; destruct (String.eqb p u); reflexivity|]. exists c, dp. rewrite (Keep p X2), E1. auto.
      + intros x d0 Ex E. rewrite V' in Ex. destruct (SE x u) as [->|Hx]; [|rewrite (Keep x Ex) in E; apply (b_exact _ H); assumption]. rewrite Ku in E. injection E as <-. split.
        * destruct (b_walk _ H u d Du) as (_ & n & K & _). eauto.
        * intros n w K. destruct (cut_walk st H d L n w u K) as [(d1 & _ & X & _)|X]; [congruence|exact X].
      + intros x v c d0 Ex E Hc. rewrite V' in Ex. destruct (SE x u) as [->|Hx].
        * rewrite Ku in E. injection E as <-. destruct (CS v) as [(k & _ & E1 & _ & _ & _ & _ & c' & Hc' & -> & _)|(N & E1 & _)].
          -- exists (d + c'). split; [exact E1|]. rewrite (cost_fun G u v c' c (rep_ok g G HG) Hc' Hc). lia.
          -- rewrite E1. assert (Pc := proj2 HN u v c Hc). destruct (vs st1 v) eqn:Ev.
             ++ rewrite V1 in Ev. destruct (SE v u) as [->|Hv]; [exists d; split; [exact Du|lia]|]. destruct (dd st v) as [dv|] eqn:Dv.
                ** exists dv. split; [reflexivity|]. assert (X := b_mono _ H v dv d u Ev Dv Hku). lia.
                ** assert (X := b_inf _ H v d u Ev Dv Hku). lia.
             ++ destruct (dd st v) as [dv|] eqn:Dv.
                ** exists dv. split; [reflexivity|]. destruct (Z_le_gt_dec dv (d + c)) as [|GT]; [assumption|]. exfalso. apply N. apply (in_map snd pushed (d + c, v)). apply (r_push _ _ _ _ _ _ RX). split; [apply (cost_dom g G HG u v c Hc)|]. split; [exact Ev|]. exists c. rewrite D1, Dv. cbn. split; [exact Hc|]. split; [reflexivity|]. apply Z.ltb_lt. lia.
                ** exfalso. apply N. apply (in_map snd pushed (d + c, v)). apply (r_push _ _ _ _ _ _ RX). split; [apply (cost_dom g G HG u v c Hc)|]. split; [exact Ev|]. exists c. rewrite D1, Dv. auto.
        * rewrite (Keep x Ex) in E. destruct (b_rel _ H x v c d0 Ex E Hc) as (d1 & X1 & X2). destruct (Dn v d1 X1) as (d2 & Y1 & Y2). exists d2. split; [exact Y1|lia].
      + intros x d0 k y Ex E Hk. assert (Xd : d0 <= d). { rewrite V' in Ex. destruct (SE x u) as [->|Hx]; [rewrite Ku in E; injection E as <-; lia|]. rewrite (Keep x Ex) in E. apply (b_mono _ H x d0 d u Ex E Hku). }
        apply El in Hk as [Hk|Hk]; [|assert (Y := L k y (proj2 (In0 _) (or_intror Hk))); lia]. apply (r_push _ _ _ _ _ _ RX) in Hk as (_ & _ & c & Hc & -> & _). assert (Y := proj2 HN u y c Hc). lia.
      + intros v k x Ev E Hk. rewrite V' in Ev. destruct (SE v u) as [->|Hv]; [congruence|]. rewrite (Keep v Ev) in E. assert (X := b_inf _ H v d u Ev E Hku). lia.
  Qed.

  (** the initialisation *)
  Lemma init_dicts l : NoDup l -> forall d p v, (forall x, In x l -> ~ In x (map fst d) /\ ~ In x (map fst p) /\ ~ In x (map fst v)) ->
    fold_left (fun '(dist, pred, visited) v => (if negb (String.eqb v s) then sdset dist v (@None Z) else dist, sdset pred v (@None string), sdset visited v false)) l (d, p, v) =
    (d ++ map (fun x => (x, None)) (filter (fun x => negb (String.eqb x s)) l), p ++ map (fun x => (x, None)) l, v ++ map (fun x => (x, false)) l).
  Proof.
    induction 1 as [|a l Na NL IH]; intros d p v H; [cbn; rewrite !app_nil_r; reflexivity|]. cbn [fold_left]. destruct (H a (or_introl eq_refl)) as (H1 & H2 & H3).
    rewrite (sset_new p a _ H2), (sset_new v a _ H3), IH.
    - cbn [filter map]. destruct (String.eqb a s); cbn [negb map]; rewrite <- ?app_assoc; [reflexivity|]. rewrite (sset_new d a _ H1), <- app_assoc. reflexivity.
    - intros x Hx. destruct (H x (or_intror Hx)) as (X1 & X2 & X3). assert (x <> a) by (intros ->; contradiction). rewrite !map_app, !in_app_iff. cbn [map fst In].
      split; [|split; intros [Y|[Y|[]]]; [contradiction|congruence|contradiction|congruence]]. destruct (String.eqb a s); cbn [negb]; [exact X1|]. rewrite (sset_new d a _ H1), map_app, in_app_iff. cbn [map fst In]. intros [Y|[Y|[]]]; [contradiction|congruence].
  Qed.
  Lemma sdget_app (A : Type) (l1 l2 : list (string * A)) x : sdget (l1 ++ l2) x = match sdget l1 x with Some y => Some y | None => sdget l2 x end.
  Proof. induction l1 as [|[k v] l1 IH]; [reflexivity|]. cbn [app sdget]. destruct (String.eqb x k); auto. Qed.
  Lemma sdget_map (A : Type) (c : A) l x : sdget (map (fun x => (x, c)) l) x = if in_dec SD x l then Some c else None.
  Proof. induction l as [|a l IH]; [reflexivity|]. cbn [map sdget]. destruct (SE x a) as [->|N]; destruct (in_dec SD _ (a :: l)) as [I|I]; try reflexivity; try (exfalso; apply I; left; reflexivity).
    - rewrite IH. destruct (in_dec SD x l) as [|J]; [reflexivity|]. destruct I as [I|I]; [congruence|contradiction].
    - rewrite IH. destruct (in_dec SD x l) as [J|]; [|reflexivity]. exfalso. apply I. right. exact J. Qed.
  Definition others : list string := filter (fun x => negb (String.eqb x s)) V.
  Lemma others_in x : In x others <-> In x V /\ x <> s.
  Proof. unfold others. rewrite filter_In. destruct (SE x s); cbn; split; intros (A & X); split; auto; congruence. Qed.
  Lemma others_perm : Permutation V (others ++ [s]).
  Proof.
    apply NoDup_Permutation; [apply HG|apply NoDup_snoc; [apply NoDup_filter, HG|intros X; apply others_in in X; tauto]|]. intros x. rewrite in_app_iff, others_in. cbn [In]. destruct (SD x s) as [->|]; [tauto|]. split; [tauto|]. intros [X|[X|[]]]; [tauto|congruence].
  Qed.
  Lemma push_all l : forall pq, bh_ok pq ->
    wp (forM l (fun '(v, d) pq => dj_push g pq v d) pq) (fun pq' => bh_ok pq' /\ Permutation (bh_elems pq') (map (fun '(v, d) => (key_of g d, v)) l ++ bh_elems pq)).
  Proof.
    induction l as [|[v d] l IH]; intros pq O; [cbn; auto|]. cbn [forM]. apply wp_bind. unfold dj_push at 1. eapply wp_mono; [apply (BinomialProofs.insert_ok _ (key_of g d) v O)|].
    intros pq1 (O1 & P1). eapply wp_mono; [apply (IH pq1 O1)|]. intros pq2 (O2 & P2). split; [exact O2|]. cbn [map app]. rewrite P2, <- P1. symmetry. apply Permutation_middle.
  Qed.
  Lemma inf_pos : 0 < inf.
  Proof. unfold inf_key. fold (W g). assert (Y := wsum_nonneg g). assert (0 <= len (gv_vertices g)) by (unfold len; lia). nia. Qed.

  Definition started (st : dj) : Prop :=
    Permutation (elems st) ((0, s) :: map (fun x => (inf, x)) others) /\ (forall v, vs st v = false) /\ (forall v, v <> s -> dd st v = None).
  Lemma init_ok : wp (dj_init g s) (fun st => B st /\ started st).
  Proof.
    unfold dj_init. rewrite (proj1 HG), (init_dicts V (proj1 (proj2 HG))) by (cbn; tauto). cbn [app]. fold others.
    rewrite sset_new by (rewrite map_map, map_id; intros X; apply others_in in X; tauto). apply wp_bind. eapply wp_mono; [apply push_all; split; [exact I|constructor]|]. intros pq (O & P). cbn [wp].
    rewrite map_app, map_map in P. cbn [map key_of bh_elems flat_map] in P. rewrite app_nil_r in P.
    set (st := mkdj _ _ _ _). assert (PE : Permutation (elems st) ((0, s) :: map (fun x => (inf, x)) others)). { unfold elems. cbn [d_pq st]. rewrite P. symmetry. apply Permutation_cons_append. }
    assert (VF : forall v, vs st v = false). { intros v. unfold vs, is_visited. cbn [st d_vis]. rewrite sdget_map. destruct (in_dec SD v V); reflexivity. }
    assert (D0 : dd st s = Some 0). { unfold dd. cbn [st d_dist]. rewrite sdget_app, sdget_map. destruct (in_dec SD s others) as [X|X]; [apply others_in in X; tauto|]. cbn. rewrite String.eqb_refl. reflexivity. }
    assert (DN : forall v, v <> s -> dd st v = None). { intros v Hv. unfold dd. cbn [st d_dist]. destruct (sdget _ v) as [x|] eqn:E; [|reflexivity]. apply sget_In in E. apply in_app_iff in E as [E|[E|[]]]; [apply in_map_iff in E as (y & E & _); congruence|congruence]. }
    assert (IN : forall k v, In (k, v) (elems st) -> (k = 0 /\ v = s) \/ (k = inf /\ In v V)).
    { intros k v X. rewrite PE in X. destruct X as [X|X]; [left; split; congruence|]. right. apply in_map_iff in X as (y & E & Y). injection E as <- <-. apply others_in in Y. tauto. }
    split; [|split; [exact PE|split; assumption]]. split; try (intros; rewrite VF in *; discriminate).
    - intros v Hv. cbn [st d_dist]. destruct (SD v s) as [->|N]; [rewrite sdget_app, sdget_map; destruct (in_dec SD s others); [eauto|]; cbn; rewrite String.eqb_refl; eauto|].
      rewrite sdget_app, sdget_map. destruct (in_dec SD v others) as [|X]; [eauto|]. exfalso. apply X, others_in. auto.
    - intros v Hv. exists false. cbn [st d_vis]. rewrite sdget_map. destruct (in_dec SD v V); [reflexivity|contradiction].
    - exact O.
    - intros k v X. destruct (IN k v X) as [(_ & ->)|(_ & Y)]; assumption.
    - intros k v X. destruct (IN k v X) as [(-> & ->)|(-> & Y)]; [right; exists 0; split; [exact D0|lia]|auto].
    - intros v d E. destruct (SD v s) as [->|N]; [|rewrite DN in E by exact N; discriminate]. rewrite D0 in E. injection E as <-. split; [exact Hs|]. exists 0%nat. split; [constructor|]. rewrite VF. lia.
    - exact D0.
    - intros v d _ E. destruct (SD v s) as [->|N]; [|rewrite DN in E by exact N; discriminate]. rewrite D0 in E. injection E as <-. rewrite PE. left. reflexivity.
    - intros v Hv. exists None. split; [cbn [st d_pred]; rewrite sdget_map; destruct (in_dec SD v V); [reflexivity|contradiction]|]. destruct (SD v s); auto.
  Qed.

  Lemma round_size st st' : round_result st st' -> (length (elems st) <= S (length (elems st')))%nat.
  Proof. intros [k u pq P _ _ ->|d u pq pushed P _ _ _ R]; apply Permutation_length in P; [exact (Nat.eq_le_incl _ _ P)|]. assert (X := Permutation_length (r_perm _ _ _ _ _ _ R)). rewrite app_length in X. cbn [length] in P. change (elems (popped st u pq)) with (bh_elems pq) in X. lia. Qed.
  Lemma started_size st : started st -> length (elems st) = length V.
  Proof. intros (P & _). apply Permutation_length in P. assert (X := Permutation_length others_perm). rewrite app_length in X. cbn [length] in *. rewrite map_length in P. lia. Qed.

  (** the whole run keeps a property [I] that every round keeps *)
  Lemma run_ok (I : nat -> dj -> Prop) : (forall st, B st -> started st -> I 0%nat st) ->
    (forall i st st', B st -> I i st -> B st' -> round_result st st' -> I (S i) st') ->
    wp (dijkstra_all g s) (fun '(dist, pred) => exists st, B st /\ I (length V) st /\ dist = d_dist st /\ pred = d_pred st).
  Proof.
    intros I0 IS. unfold dijkstra_all. apply wp_bind. eapply wp_mono; [apply init_ok|]. intros st (HB & HS). apply wp_bind. rewrite (proj1 HG).
    eapply wp_mono; [apply (wp_forM _ _ V (fun _ st => dj_round g st) (fun pre st => B st /\ I (length pre) st /\ (length V <= length (elems st) + length pre)%nat))|].
    - intros pre b post st1 E (B1 & I1 & L1). assert (NE : elems st1 <> []). { intros X. rewrite X, E in L1. rewrite app_length in L1. cbn in L1. lia. }
      eapply wp_mono; [apply (round_ok st1 B1 NE)|]. intros st2 (B2 & R). split; [exact B2|]. rewrite app_length. cbn [length]. rewrite Nat.add_1_r. split; [apply (IS _ _ _ B1 I1 B2 R)|]. apply round_size in R. lia.
    - split; [exact HB|]. split; [apply I0; assumption|]. rewrite (started_size _ HS). cbn. lia.
    - intros st1 (B1 & I1 & _). cbn [wp]. exists st1. auto.
  Qed.

  (** a state in which every vertex with a distance has been visited: nothing changes any more *)
  Definition finished (st : dj) : Prop := forall v d, dd st v = Some d -> vs st v = true.
  Lemma finished_round st st' : B st -> finished st -> round_result st st' -> finished st'.
  Proof.
    intros HB F [k u pq P L C ->|d u pq pushed P L Vu Du R]; [|rewrite (F u d Du) in Vu; discriminate]. intros v d E. rewrite vs_popped, (F v d E). destruct (String.eqb v u); reflexivity.
  Qed.

  Context (ND : no_detour G s).
  Definition fin (l : list (Z * string)) : list (Z * string) := filter (fun e => fst e <? inf) l.
  Lemma fin_in l k v : In (k, v) (fin l) <-> In (k, v) l /\ k < inf.
  Proof. unfold fin. rewrite filter_In. cbn [fst]. rewrite Z.ltb_lt. reflexivity. Qed.
  Lemma fin_perm l l' : Permutation l l' -> Permutation (fin l) (fin l').
  Proof.
    unfold fin. induction 1 as [|x l l' P IH|x y l|l1 l2 l3 P1 IH1 P2 IH2]; [constructor| | |etransitivity; eassumption].
    - cbn [filter]. destruct (fst x <? inf); [constructor|]; exact IH.
    - cbn [filter]. destruct (fst x <? inf), (fst y <? inf); try reflexivity. constructor.
  Qed.
  Record busy (i : nat) (st : dj) : Prop := {
    a_n : nvis st V = i;
    a_fin : forall v, vs st v = true -> exists d, dd st v = Some d;
    a_ent : forall k v, In (k, v) (elems st) -> k < inf -> dd st v = Some k /\ vs st v = false;
    a_nd : NoDup (map snd (fin (elems st)))
  }.
  Lemma busy_round i st st' : B st -> busy i st -> B st' -> round_result st st' -> busy (S i) st' \/ finished st'.
  Proof.
    intros HB A HB' R. assert (R0 := R). destruct R as [k u pq P L C Est|d u pq pushed P L Vu Du RX].
    - right. apply (finished_round st st' HB); [|exact R0]. intros v d E. destruct (vs st v) eqn:Ev; [reflexivity|]. exfalso. assert (X := b_in _ HB v d Ev E). assert (Y := L _ _ X). assert (Z := dd_bound st v d HB E).
      assert (Hk : k < inf) by lia. assert (In0 : In (k, u) (elems st)) by (rewrite P; left; reflexivity). destruct (a_ent _ _ A k u In0 Hk) as (W1 & W2). destruct C; congruence.
    - left. assert (NV := proj1 (proj2 HG)). assert (Bd := dd_bound st u d HB Du). set (st1 := popped st u pq) in *.
      assert (Hku : In (d, u) (elems st)) by (rewrite P; left; reflexivity). assert (HuV := b_dom _ HB d u Hku).
      assert (V' : forall x, vs st' x = if String.eqb x u then true else vs st x). { intros x. rewrite <- (vs_popped st u pq). fold st1. unfold vs. rewrite (r_vis _ _ _ _ _ _ RX). reflexivity. }
      assert (NP : forall k v, In (k, v) pushed -> vs st v = false /\ v <> u /\ dd st v = None).
      { intros k v I. apply (r_push _ _ _ _ _ _ RX) in I as (_ & X1 & c & X2 & -> & X3). unfold st1 in X1. rewrite vs_popped in X1. destruct (SE v u) as [Hv|Hv]; [discriminate|]. split; [exact X1|]. split; [exact Hv|].
        change (dd st1 v) with (dd st v) in X3. destruct (dd st v) as [e|] eqn:E; [|reflexivity]. exfalso. cbn in X3. apply Z.ltb_lt in X3. assert (HvV := proj1 (b_walk _ HB v e E)). destruct (b_pred _ HB v HvV) as (p & _ & Y).
        destruct p as [p|]; [|destruct Y as [->|Y]; [|congruence]; rewrite (b_src _ HB) in E; injection E as <-; assert (Q := proj2 HN u s c X2); lia].
        destruct Y as (_ & Y1 & c' & dp & Y2 & Y3 & Y4). rewrite E in Y4. injection Y4 as ->. assert (Q := ND p u v c' c dp d (b_exact _ HB p dp Y1 Y3)). 
        assert (LU : least_cost G s u d). { apply (b_exact _ HB'); [rewrite V', String.eqb_refl; reflexivity|]. rewrite (proj1 (r_old _ _ _ _ _ _ RX u ltac:(intros I; apply in_map_iff in I as ([k' x'] & E' & I); cbn in E'; subst x'; apply (r_push _ _ _ _ _ _ RX) in I as (_ & I & _); unfold st1 in I; rewrite vs_popped, String.eqb_refl in I; discriminate))). exact Du. }
        specialize (Q LU Y2 X2 (b_mono _ HB p dp d u Y1 Y3 Hku)). lia. }
      assert (Kp : forall v, (vs st v = true \/ v = u) -> dd st' v = dd st v). { intros v Hv. apply (r_old _ _ _ _ _ _ RX). intros I. apply in_map_iff in I as ([k x] & E & I). cbn in E. subst x. apply NP in I as (I1 & I2 & _). destruct Hv; congruence. }
      split.
      + rewrite <- (a_n _ _ A). unfold nvis. apply (filter_add (vs st) (vs st') V u); auto; [rewrite V', String.eqb_refl; reflexivity|intros x Hx; rewrite V'; destruct (SE x u); congruence].
      + intros v Hv. rewrite V' in Hv. destruct (SE v u) as [E|N]; [rewrite Kp by auto; subst v; eauto|]. rewrite Kp by auto. apply (a_fin _ _ A v Hv).
      + intros k v I Lk. rewrite (r_perm _ _ _ _ _ _ RX), in_app_iff in I. destruct I as [I|I].
        * split; [apply (r_new _ _ _ _ _ _ RX k v I)|]. destruct (NP k v I) as (X1 & X2 & _). rewrite V'. destruct (SE v u); congruence.
        * assert (I0 : In (k, v) (elems st)) by (rewrite P; right; exact I). destruct (a_ent _ _ A k v I0 Lk) as (X1 & X2).
          assert (v <> u). { intros ->. assert (Q := a_nd _ _ A). rewrite (Permutation_map snd (fin_perm _ _ P)) in Q. unfold fin in Q. cbn [filter fst] in Q. destruct (Z.ltb_spec d inf); [|lia]. cbn [map snd] in Q. inversion Q as [|? ? Q1 Q2]; subst. apply Q1.
            apply (in_map snd _ (k, u)). apply fin_in. split; [exact I|exact Lk]. }
          split; [|rewrite V'; destruct (SE v u); congruence]. rewrite (proj1 (r_old _ _ _ _ _ _ RX v ltac:(intros J; apply in_map_iff in J as ([k' x'] & E' & J); cbn in E'; subst x'; apply NP in J as (_ & _ & J); congruence))). exact X1.
      + rewrite (Permutation_map snd (fin_perm _ _ (r_perm _ _ _ _ _ _ RX))). unfold fin. rewrite filter_app, map_app. change (elems st1) with (bh_elems pq).
        assert (Q := a_nd _ _ A). rewrite (Permutation_map snd (fin_perm _ _ P)) in Q. unfold fin in Q. cbn [filter fst] in Q. destruct (Z.ltb_spec d inf); [|lia]. cbn [map snd] in Q. inversion Q as [|? ? Q1 Q2]; subst.
        apply NoDup_app_intro.
        * assert (QQ := r_nd _ _ _ _ _ _ RX). clear - QQ. induction pushed as [|e l IH]; [constructor|]. cbn [map filter] in *. inversion QQ as [|? ? X1 X2]; subst. destruct (fst e <? inf); [|auto]. cbn [map]. constructor; [|auto]. intros I. apply X1. apply in_map_iff in I as (e' & E & I). apply filter_In in I as (I & _). rewrite <- E. apply in_map. exact I.
        * exact Q2.
        * intros v I1 I2. apply in_map_iff in I1 as ([k x] & E & I1). cbn in E. subst x. apply filter_In in I1 as (I1 & _). apply NP in I1 as (_ & _ & I1).
          apply in_map_iff in I2 as ([k' x'] & E & I2). cbn in E. subst x'. apply fin_in in I2 as (I2 & I3). destruct (a_ent _ _ A k' v) as (X & _); [rewrite P; right; exact I2|exact I3|congruence].
  Qed.
  Lemma busy_start st : B st -> started st -> busy 0 st.
  Proof.
    intros HB (P & VF & DN). split.
    - unfold nvis. rewrite (filter_ext (vs st) (fun _ => false)); [|exact VF]. clear. induction (fst G) as [|a l IH]; [reflexivity|exact IH].
    - intros v Hv. rewrite VF in Hv. discriminate.
    - intros k v I Lk. rewrite P in I. destruct I as [I|I]; [injection I as <- <-; split; [apply HB|apply VF]|]. apply in_map_iff in I as (y & E & _). injection E as <- _. lia.
    - rewrite (Permutation_map snd (fin_perm _ _ P)). unfold fin. cbn [filter fst]. assert (X := inf_pos). destruct (Z.ltb_spec 0 inf); [|lia]. cbn [map snd].
      assert (E : filter (fun e : Z * string => fst e <? inf) (map (fun x => (inf, x)) others) = []). { clear. induction others as [|a l IH]; [reflexivity|]. cbn [map filter fst]. rewrite Z.ltb_irrefl. exact IH. }
      rewrite E. repeat constructor. intros [].
  Qed.
  Lemma nvis_all st : nvis st V = length V -> forall v, In v V -> vs st v = true.
  Proof.
    unfold nvis. clear. induction (fst G) as [|a l IH]; [intros _ v []|]. cbn [filter length]. assert (X := filter_len_le (vs st) l). destruct (vs st a) eqn:E; cbn [length]; intros H v Hv; [|lia]. destruct Hv as [<-|Hv]; [exact E|apply IH; [lia|exact Hv]].
  Qed.
  Lemma exact_run : wp (dijkstra_all g s) (fun '(dist, pred) => exists st, B st /\ finished st /\ dist = d_dist st /\ pred = d_pred st).
  Proof.
    eapply wp_mono; [apply (run_ok (fun i st => busy i st \/ finished st))|].
    - intros st HB HS. left. apply busy_start; assumption.
    - intros i st st' HB [A|F] HB' R; [apply (busy_round i st st' HB A HB' R)|right; apply (finished_round st st' HB F R)].
    - intros [dist pred] (st & HB & AF & E1 & E2). exists st. split; [exact HB|]. split; [|auto]. destruct AF as [A|F]; [|exact F]. intros v d E. apply nvis_all; [apply A|]. apply (proj1 (b_walk _ HB v d E)).
  Qed.
  Lemma finished_reach st : B st -> finished st -> forall n w v, cwalk G s n w v -> exists d, dd st v = Some d.
  Proof. intros HB F n w v K. induction K as [|n w u v c K (d & E) Hc]; [exists 0; apply HB|]. destruct (b_rel _ HB u v c d (F u d E) E Hc) as (d' & X & _). eauto. Qed.
End D.

Lemma B_tree g G s st : represents g G -> B g G s st -> walk_tree G s (d_dist st) (d_pred st).
Proof.
  intros HG H. assert (DD : forall v d, dd st v = Some d <-> sdget (d_dist st) v = Some (Some d)). { intros v d. unfold dd. destruct (sdget (d_dist st) v); split; congruence. } split.
  - apply DD. apply H.
  - intros v Hv. split; [apply (b_dk _ _ _ _ H v Hv)|]. destruct (b_pred _ _ _ _ H v Hv) as (p & E & _). eauto.
  - intros v d E. apply DD in E. destruct (b_walk _ _ _ _ H v d E) as (_ & n & K & _). eauto.
  - intros v p Hv E. destruct (b_pred _ _ _ _ H v Hv) as (p' & E' & X). rewrite E in E'. injection E' as <-. destruct X as (X1 & X2 & c & dp & X3 & X4 & X5). split; [exact X1|]. exists c, dp. split; [exact X3|]. split; [apply DD; exact X4|]. split; [apply (b_exact _ _ _ _ H p dp X2 X4)|apply DD; exact X5].
  - intros v Hv E. destruct (b_pred _ _ _ _ H v Hv) as (p' & E' & X). rewrite E in E'. injection E' as <-. destruct X as [X|X]; [auto|]. right. destruct (b_dk _ _ _ _ H v Hv) as (o & Eo). unfold dd in X. rewrite Eo in X. congruence.
Qed.
Lemma walk_cwalk g G s n v : represents g G -> weighted G -> walk G s n v -> exists w, cwalk G s n w v.
Proof. intros HG HW K. induction K as [|n u v K (w & IH) Hc]; [exists 0; constructor|]. destruct (HW u v Hc) as (c & X). exists (w + c). econstructor; eassumption. Qed.
