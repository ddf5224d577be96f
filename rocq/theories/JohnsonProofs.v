(** Proofs about johnson (C97). *)
From Coq Require Import Strings.String Strings.Ascii.
From Verif Require Import Base DsfModel GraphModel GraphSpec GraphDict GraphProofs PathModel GraphProps FlowSpec DijkstraSpec DijkstraModel DijkstraProofs DijkstraProps JohnsonModel JohnsonSpec.
Import List.

Lemma q_ordinary : ordinary jq.
Proof. split; [reflexivity|]. split; [discriminate|]. simpl. intuition discriminate. Qed.

(** ** the graph with the extra vertex *)
Section Source.
  Variable G : dg.
  Hypothesis OK : dg_ok G.
  Hypothesis NQ : ~ In jq (fst G).
  Let G1 := with_source G jq.

  Lemma ws_cost a b c : has_cost G1 a b c <-> has_cost G a b c \/ (a = jq /\ In b (fst G) /\ c = 0).
  Proof.
    unfold has_cost, G1, with_source. cbn [snd]. rewrite in_app_iff, in_map_iff. split; intros [H|H]; auto.
    - destruct H as (x & E & Hx). injection E as <- <- <-. auto.
    - destruct H as (-> & Hb & ->). right. exists b. auto.
  Qed.
  Lemma ws_edge a b : is_edge G1 a b <-> is_edge G a b \/ (a = jq /\ In b (fst G)).
  Proof.
    unfold is_edge, dg_edges, G1, with_source. cbn [snd]. rewrite map_app, in_app_iff, map_map. cbn [fst]. rewrite (in_map_iff (fun x : string => (jq, x)) (fst G)). split; intros [H|H]; auto.
    - destruct H as (x & E & Hx). injection E as <- <-. auto.
    - destruct H as (-> & Hb). right. exists b. auto.
  Qed.
  Lemma noq_src u v : is_edge G u v -> u <> jq /\ v <> jq.
  Proof. intros H. destruct (ok_in _ OK u v H). split; intros ->; contradiction. Qed.
  Lemma ws_weighted : weighted G -> weighted G1.
  Proof. intros W u v H. apply ws_edge in H as [H|[-> H]]; [destruct (W u v H) as (c & Hc); exists c; apply ws_cost; auto|exists 0; apply ws_cost; auto]. Qed.
  Lemma ws_walk n w v : cwalk G1 jq n w v -> (n = O /\ w = 0 /\ v = jq) \/ exists u m, n = S m /\ In u (fst G) /\ cwalk G u m w v.
  Proof.
    intros H. induction H as [|n w u v c H IH Hc]; [auto|]. right. apply ws_cost in Hc as [Hc|(-> & Hv & ->)].
    - destruct IH as [(-> & -> & ->)|(x & m & -> & Hx & K)]; [exfalso; apply cost_edge in Hc; apply (proj1 (noq_src _ _ Hc)); reflexivity|]. exists x, (S m). split; [reflexivity|]. split; [exact Hx|]. apply (cwalk_snoc G x m w u v c K Hc).
    - destruct IH as [(-> & -> & _)|(x & m & -> & Hx & K)]; [exists v, O; split; [reflexivity|]; split; [exact Hv|]; constructor|].
      exfalso. inversion K; subst; [contradiction|]. match goal with H : has_cost G _ jq _ |- _ => apply cost_edge in H; apply (noq_src _ _ H); reflexivity end.
  Qed.
  Lemma ws_inc u n w v : cwalk G u n w v -> cwalk G1 u n w v.
  Proof. intros H. induction H as [|n w x y c H IH Hc]; [constructor|]. apply (cwalk_snoc G1 u n w x y c IH). apply ws_cost. auto. Qed.
  Lemma ws_app u n w v m w' x : cwalk G1 u n w v -> cwalk G1 v m w' x -> exists k, cwalk G1 u k (w + w') x.
  Proof. intros H K. induction K as [|m w' y z c K IH Hc]; [exists n; rewrite Z.add_0_r; exact H|]. destruct IH as (k & IH). exists (S k). rewrite Z.add_assoc. apply (cwalk_snoc G1 u k _ y z c IH Hc). Qed.
  Lemma ws_walk' u n w v : In u (fst G) -> cwalk G u n w v -> exists k, cwalk G1 jq k w v.
  Proof. intros Hu H. apply ws_inc in H. assert (S1 : cwalk G1 jq 1 (0 + 0) u) by (apply (cwalk_snoc G1 jq 0 0 jq u 0); [constructor|apply ws_cost; auto]). destruct (ws_app _ _ _ _ _ _ _ S1 H) as (k & K). exists k. exact K. Qed.
  Lemma cwalk_end u n w v : cwalk G u (S n) w v -> In v (fst G).
  Proof. intros H. inversion H; subst. match goal with H : has_cost G _ v _ |- _ => apply cost_edge, (ok_in _ OK) in H as [_ X]; exact X end. Qed.
  Lemma ws_neg : negative_cycle_from G1 jq <-> has_negative_cycle G.
  Proof.
    assert (NoQin : forall a c, ~ has_cost G1 a jq c). { intros a c H. apply ws_cost in H as [H|(_ & H & _)]; [apply cost_edge in H; apply (noq_src _ _ H); reflexivity|contradiction]. }
    assert (IN : forall u n w v, u <> jq -> cwalk G1 u n w v -> cwalk G u n w v /\ v <> jq).
    { intros u n w v Hu H. induction H as [|n w x y c H IH Hc]; [split; [constructor|exact Hu]|]. destruct IH as [IH Nx]. split; [|intros ->; apply (NoQin _ _ Hc)]. apply ws_cost in Hc as [Hc|(-> & _)]; [|congruence]. apply (cwalk_snoc G u n w x y c IH Hc). }
    split.
    - intros (v & n & w & _ & H & L). destruct (SD v jq) as [->|Nv]; [exfalso; inversion H; subst; match goal with H : has_cost G1 _ jq _ |- _ => apply (NoQin _ _ H) end|]. exists v, n, w. split; [apply IN; assumption|exact L].
    - intros (v & n & w & H & L). exists v, n, w. split; [|split; [apply ws_inc; exact H|exact L]]. exists 1%nat. apply (walk_snoc G1 jq 0 jq v); [constructor|]. apply ws_edge. right. split; [reflexivity|]. apply (cwalk_end _ _ _ _ H).
  Qed.
  Lemma ws_reach v : In v (fst G) -> reachable G1 jq v.
  Proof. intros H. exists 1%nat. apply (walk_snoc G1 jq 0 jq v); [constructor|]. apply ws_edge. auto. Qed.
End Source.

(** ** adding it *)
Lemma noq_edges V E : dg_ok (V, E) -> ~ In jq V -> forall e, In e E -> fst (fst e) <> jq /\ snd (fst e) <> jq.
Proof. intros OK NQ [[a b] c] H. apply (in_map fst) in H. destruct (ok_in _ OK a b H) as [A B]. cbn. split; intros ->; contradiction. Qed.
Lemma grow_ok g G : al_rep g G -> wrep (al_weights g) G -> dg_ok G -> ~ In jq (fst G) ->
  wp (j_grow g) (fun g1 => al_rep g1 (with_source G jq) /\ wrep (al_weights g1) (with_source G jq) /\ dg_ok (with_source G jq)).
Proof.
  intros HR HW OK NQ. unfold j_grow. assert (Q := q_ordinary). assert (R1 := step_add_vertex g G jq HR OK Q). assert (O1 := dg_step_ok G (GAddV jq) OK ltac:(repeat constructor; apply Q)).
  assert (W1 : wrep (al_weights (al_add_vertex g jq)) (dg_step G (GAddV jq))). { unfold al_add_vertex. destruct G as [V E]. destruct (negb (al_hasattr g jq)); cbn [al_weights dg_step]; destruct (mem jq V); exact HW. }
  destruct G as [V E]. cbn [fst] in NQ. assert (NE := noq_edges V E OK NQ). assert (EV : dg_step (V, E) (GAddV jq) = (V ++ [jq], E)). { cbn [dg_step]. rewrite (proj2 (mem_false jq V) NQ). reflexivity. } rewrite EV in *.
  assert (AV : al_vertices (al_add_vertex g jq) = V ++ [jq]) by apply (rep_v _ _ R1). cbv zeta. rewrite AV. set (g0 := al_add_vertex g jq) in *. clearbody g0. clear HR HW OK EV AV g.
  assert (NV : NoDup (V ++ [jq])) by apply (ok_v _ O1). assert (FO := ok_ord _ O1). cbn [fst] in FO. rewrite Forall_forall in FO.
  set (Fp := fun p => (V ++ [jq], E ++ map (fun v => (jq, v, Some 0)) (filter (fun x => negb (String.eqb x jq)) p))).
  assert (K : wp (forM (V ++ [jq]) (fun vertex g => if negb (String.eqb vertex jq) then al_add_edge g jq vertex (Some 0) else Ret g) g0) (fun g => al_rep g (Fp (V ++ [jq])) /\ wrep (al_weights g) (Fp (V ++ [jq])) /\ dg_ok (Fp (V ++ [jq])))).
  { apply (wp_forM _ _ (V ++ [jq]) _ (fun p g => al_rep g (Fp p) /\ wrep (al_weights g) (Fp p) /\ dg_ok (Fp p))).
    - intros pre v post g EV (R & W & O). unfold Fp. rewrite filter_app. cbn [filter]. destruct (SE v jq) as [->|Nv]; cbn [negb].
      + rewrite app_nil_r. apply wp_ret. auto.
      + assert (Hv : In v (V ++ [jq])) by (rewrite EV; apply in_or_app; right; left; reflexivity). assert (Hq : In jq (V ++ [jq])) by (apply in_or_app; right; left; reflexivity).
        destruct (step_add_edge g (Fp pre) jq v (Some 0) R O Q (FO v Hv) Hq Hv) as (g' & E' & R' & W'). apply (wp_eq _ _ _ _ E').
        assert (EF : dg_step (Fp pre) (GAddE jq v (Some 0)) = Fp (pre ++ [v])).
        { unfold Fp. cbn [dg_step]. rewrite (proj2 (mem_true jq _) Hq), (proj2 (mem_true v _) Hv). cbn [andb]. rewrite existsb_edge. rewrite (proj2 (mem_false v _)).
          - rewrite filter_app. cbn [filter]. destruct (SE v jq) as [|_]; [contradiction|]. cbn [negb]. rewrite map_app, app_assoc. reflexivity.
          - rewrite outs_In, map_app, map_map. cbn [fst]. intros H. apply in_app_or in H as [H|H].
            + apply in_map_iff in H as (e & Ee & He). apply (proj1 (NE e He)). rewrite Ee. reflexivity.
            + apply in_map_iff in H as (x & Ex & Hx). injection Ex as ->. apply filter_In in Hx as [Hx _]. rewrite EV in NV. apply NoDup_remove_2 in NV. apply NV, in_or_app. auto. }
        unfold Fp in EF |- *. rewrite filter_app in EF. cbn [filter] in EF. destruct (SE v jq) as [|_]; [contradiction|]. cbn [negb] in EF. rewrite <- EF. split; [exact R'|]. split; [rewrite W'; exact (wrep_addE (al_weights g) (Fp pre) jq v (Some 0) W O Hq Hv)|]. apply dg_step_ok; [exact O|]. repeat constructor; try apply Q; apply (FO v Hv).
    - unfold Fp. cbn [filter map]. rewrite app_nil_r. auto. }
  assert (EF : Fp (V ++ [jq]) = with_source (V, E) jq). { unfold Fp, with_source. cbn [fst snd]. rewrite filter_app. cbn [filter]. rewrite String.eqb_refl. cbn [negb]. rewrite app_nil_r. rewrite filter_id; [reflexivity|]. intros x Hx. destruct (SE x jq) as [->|]; [contradiction|reflexivity]. }
  rewrite <- EF. exact K.
Qed.

(** ** removing it again *)
Lemma shrink_ok g G : al_rep g (with_source G jq) -> wrep (al_weights g) (with_source G jq) -> dg_ok (with_source G jq) -> dg_ok G -> ~ In jq (fst G) ->
  wp (j_shrink g) (fun g1 => al_rep g1 G /\ wrep (al_weights g1) G).
Proof.
  intros R W O OK NQ. unfold j_shrink. assert (Q := q_ordinary). cbv zeta.
  set (es := flat_map _ (al_weights g)).
  assert (ES : forall p, In p es <-> exists v, p = (jq, v) /\ In v (fst G)).
  { intros p. unfold es. rewrite in_flat_map. split.
    - intros ([k e] & He & Hp). destruct (SE (e_src e) jq) as [Es|]; [|destruct Hp]. destruct Hp as [<-|[]]. apply W in He as (u & v & c & -> & -> & Hc). cbn in Es |- *. subst u. exists v. split; [reflexivity|]. apply (ws_cost G) in Hc as [Hc|(_ & Hv & _)]; [|exact Hv].
      apply cost_edge, (ok_in _ OK) in Hc as [X _]. contradiction.
    - intros (v & -> & Hv). exists (ekey jq v, (jq, v, 0)). split; [apply W; exists jq, v, 0; split; [reflexivity|]; split; [reflexivity|]; apply ws_cost; auto|]. cbn [e_src e_tgt fst snd]. rewrite String.eqb_refl. left. reflexivity. }
  assert (ND : NoDup es).
  { assert (X : forall W0 : list (string * edge), NoDup (map fst W0) -> (forall k e, In (k, e) W0 -> k = ekey (e_src e) (e_tgt e)) -> NoDup (flat_map (fun '(_, e) => if String.eqb (e_src e) jq then [(e_src e, e_tgt e)] else []) W0)).
    { clear. induction W0 as [|[k e] W0 IH]; intros HN HK; [constructor|]. inversion HN as [|x y N1 N2]; subst. cbn [flat_map]. assert (IH' := IH N2 (fun k' e' H => HK k' e' (or_intror H))). destruct (String.eqb (e_src e) jq); [|exact IH']. constructor; [|exact IH'].
      rewrite in_flat_map. intros ([k' e'] & He & Hp). destruct (String.eqb (e_src e') jq); [|destruct Hp]. destruct Hp as [Hp|[]]. injection Hp as E1 E2. apply N1. cbn [fst]. rewrite (HK k e (or_introl eq_refl)), <- E1, <- E2, <- (HK k' e' (or_intror He)). apply (in_map fst) in He. exact He. }
    apply X; [apply W|]. intros k e He. apply W in He as (u & v & c & -> & -> & _). reflexivity. }
  clearbody es. destruct G as [V E]. cbn [fst] in *. assert (NE := noq_edges V E OK NQ). assert (FO := ok_ord _ O). cbn [with_source fst] in FO. rewrite Forall_forall in FO.
  apply wp_bind.
  assert (K : wp (forM es (fun '(u, v) g => al_remove_edge g u v) g) (fun g => exists F, al_rep g (V ++ [jq], E ++ F) /\ wrep (al_weights g) (V ++ [jq], E ++ F) /\ dg_ok (V ++ [jq], E ++ F) /\ (forall e, In e F -> fst (fst e) = jq) /\ forall v, In (jq, v) (map fst F) <-> In v V /\ ~ In (jq, v) es)).
  { apply (wp_forM _ _ es _ (fun p g => exists F, al_rep g (V ++ [jq], E ++ F) /\ wrep (al_weights g) (V ++ [jq], E ++ F) /\ dg_ok (V ++ [jq], E ++ F) /\ (forall e, In e F -> fst (fst e) = jq) /\ forall v, In (jq, v) (map fst F) <-> In v V /\ ~ In (jq, v) p)).
    - intros pre [u v] post g' EE (F & R' & W' & O' & HF & HI). assert (Hb : In (u, v) es) by (rewrite EE; apply in_or_app; right; left; reflexivity). apply ES in Hb as (v' & [= -> <-] & Hv).
      assert (Hn : ~ In (jq, v) pre) by (rewrite EE in ND; apply NoDup_remove_2 in ND; intros X; apply ND, in_or_app; auto).
      assert (Hvv : In v (V ++ [jq])) by (apply in_or_app; auto). assert (Hq : In jq (V ++ [jq])) by (apply in_or_app; right; left; reflexivity).
      assert (HE : is_edge (V ++ [jq], E ++ F) jq v). { unfold is_edge, dg_edges. cbn [snd]. rewrite map_app. apply in_or_app. right. apply HI. auto. }
      destruct (step_remove_edge g' _ jq v R' O' (FO v Hvv) Hq Hvv HE) as (g1 & E1 & R1 & W1). apply (wp_eq _ _ _ _ E1). exists (filter (fun e => negb (same_edge jq v e)) F).
      assert (EF : dg_step (V ++ [jq], E ++ F) (GRemE jq v) = (V ++ [jq], E ++ filter (fun e => negb (same_edge jq v e)) F)).
      { cbn [dg_step]. rewrite filter_app. f_equal. f_equal. clear - NE. induction E as [|e E IH]; [reflexivity|]. cbn [filter]. destruct (same_edge_spec jq v e) as [X|_]; [exfalso; apply (proj1 (NE e (or_introl eq_refl))); rewrite X; reflexivity|]. cbn [negb]. f_equal. apply IH. intros e' H. apply NE. right. exact H. }
      rewrite <- EF. split; [exact R1|]. split; [rewrite W1; apply wrep_remE; [exact W'|exact O'|apply Q]|]. split; [apply dg_step_ok; [exact O'|]; repeat constructor; try apply Q; apply (FO v Hvv)|]. split.
      + intros e He. apply filter_In in He as [He _]. auto.
      + intros x. assert (Z1 : In (jq, x) (map fst (filter (fun e => negb (same_edge jq v e)) F)) <-> In (jq, x) (map fst F) /\ x <> v).
        { rewrite !in_map_iff. split.
          - intros (e & Ee & He). apply filter_In in He as [He Hs]. split; [exists e; auto|]. intros ->. destruct (same_edge_spec jq v e); [discriminate|congruence].
          - intros ((e & Ee & He) & Nx). exists e. split; [exact Ee|]. apply filter_In. split; [exact He|]. destruct (same_edge_spec jq v e) as [X|]; [|reflexivity]. rewrite Ee in X. injection X as X. contradiction. }
        rewrite Z1, HI, in_app_iff. cbn [In]. split; [intros ((A & B) & C); split; [exact A|]; intros [X|[X|[]]]; [auto|injection X as X; congruence]|]. intros (A & B). split; [split; [exact A|]; auto|]. intros ->. apply B. right. left. reflexivity.
    - exists (map (fun v => (jq, v, Some 0)) V). split; [exact R|]. split; [exact W|]. split; [exact O|]. split; [intros e He; apply in_map_iff in He as (x & <- & _); reflexivity|].
      intros v. rewrite map_map. cbn [fst]. rewrite in_map_iff. split; [intros (x & [= ->] & Hx); auto|]. intros (Hv & _). exists v. auto. }
  apply (wp_mono _ _ _ _ K). clear K R W O. intros g1 (F & R & W & O & HF & HI).
  assert (F = []) as ->. { destruct F as [|[[a b] c] F]; [reflexivity|]. exfalso. assert (X := HF _ (or_introl eq_refl)). cbn in X. subst a. destruct (proj1 (HI b)) as [A B]; [left; reflexivity|]. apply B, ES. exists b. auto. }
  rewrite app_nil_r in *. assert (Hq : In jq (V ++ [jq])) by (apply in_or_app; right; left; reflexivity). destruct (step_remove_vertex g1 _ jq R O Q Hq) as (g2 & E2 & R2 & W2). apply (wp_eq _ _ _ _ E2).
  assert (EF : dg_step (V ++ [jq], E) (GRemV jq) = (V, E)).
  { cbn [dg_step]. rewrite filter_app. cbn [filter]. rewrite String.eqb_refl. cbn [negb]. rewrite app_nil_r. rewrite filter_id; [f_equal|intros x Hx; destruct (SE jq x) as [<-|]; [contradiction|reflexivity]].
    clear - NE. induction E as [|e E IH]; [reflexivity|]. cbn [filter]. destruct (NE e (or_introl eq_refl)) as [A B]. destruct (SE jq (fst (fst e))); [congruence|]. destruct (SE jq (snd (fst e))); [congruence|]. cbn [orb negb]. f_equal. apply IH. intros e' H. apply NE. right. exact H. }
  rewrite <- EF. split; [exact R2|]. rewrite W2, EF. destruct W as [W1 W3]. split; [exact W1|exact W3].
Qed.

(** ** the new costs *)
Section Reweight.
  Variable G : dg.
  Variable h : string -> Z.
  Let G' := reweighted G h.
  Lemma rw_fst e : fst (fst e, option_map (fun c => c + (h (fst (fst e)) - h (snd (fst e)))) (snd e)) = fst (e : string * string * option Z).
  Proof. reflexivity. Qed.
  Lemma rw_edges : dg_edges G' = dg_edges G.
  Proof. unfold dg_edges, G', reweighted. cbn [snd]. rewrite map_map. apply map_ext. reflexivity. Qed.
  Lemma rw_edge u v : is_edge G' u v <-> is_edge G u v.
  Proof. unfold is_edge. rewrite rw_edges. reflexivity. Qed.
  Lemma rw_ok : dg_ok G -> dg_ok G'.
  Proof. intros [A B C D]. constructor; [exact A|exact B|rewrite rw_edges; exact C|]. intros u v H. apply D. rewrite <- rw_edge. exact H. Qed.
  Lemma rw_cost u v c : has_cost G' u v c <-> has_cost G u v (c - (h u - h v)).
  Proof.
    unfold has_cost, G', reweighted. cbn [snd]. rewrite in_map_iff. split.
    - intros ([[a b] o] & E & H). cbn in E. injection E as -> -> E. destruct o as [z|]; [|discriminate]. injection E as <-. replace (z + (h u - h v) - (h u - h v)) with z by lia. exact H.
    - intros H. exists (u, v, Some (c - (h u - h v))). split; [|exact H]. cbn. do 2 f_equal. lia.
  Qed.
  Lemma rw_walk s n w v : cwalk G' s n w v <-> cwalk G s n (w - h s + h v) v.
  Proof.
    split.
    - intros H. induction H as [|n w u v c H IH Hc]; [replace (0 - h s + h s) with 0 by lia; constructor|]. apply rw_cost in Hc. replace (w + c - h s + h v) with (w - h s + h u + (c - (h u - h v))) by lia. apply (cwalk_snoc G s n _ u v _ IH Hc).
    - intros H. remember (w - h s + h v) as w' eqn:Ew. revert w Ew. induction H as [|n w' u v c H IH Hc]; intros w Ew; [replace w with 0 by lia; constructor|].
      specialize (IH (w' + h s - h u) ltac:(lia)). replace w with (w' + h s - h u + (c + (h u - h v))) by lia. apply (cwalk_snoc G' s n _ u v _ IH). apply rw_cost. replace (c + (h u - h v) - (h u - h v)) with c by lia. exact Hc.
  Qed.
  Lemma rw_least s v d : least_cost G' s v d <-> least_cost G s v (d - h s + h v).
  Proof.
    unfold least_cost. split; intros ((n & H) & L); (split; [exists n; apply rw_walk; exact H|]); intros m w K.
    - assert (X := L m (w + h s - h v)). rewrite rw_walk in X. replace (w + h s - h v - h s + h v) with w in X by lia. specialize (X K). lia.
    - apply rw_walk in K. specialize (L _ _ K). lia.
  Qed.
  Lemma rw_nwalk s n v : walk G' s n v <-> walk G s n v.
  Proof. split; intros H; induction H as [|n u v H IH He]; try constructor; (eapply walk_snoc; [exact IH|]); apply rw_edge; exact He. Qed.
  Lemma rw_reach s v : reachable G' s v <-> reachable G s v.
  Proof. unfold reachable. split; intros (n & H); exists n; apply rw_nwalk; exact H. Qed.
  Lemma rw_weighted : weighted G -> weighted G'.
  Proof. intros W u v H. apply rw_edge in H. destruct (W u v H) as (c & Hc). exists (c + (h u - h v)). apply rw_cost. replace (c + (h u - h v) - (h u - h v)) with c by lia. exact Hc. Qed.
  Lemma rw_nonneg : dg_ok G -> potential G h -> forall u v c, has_cost G' u v c -> 0 <= c.
  Proof.
    intros OK P u v c H. apply rw_cost in H. destruct (ok_in _ OK u v (cost_edge _ _ _ _ H)) as [Hu Hv]. destruct (P u Hu) as ((x & n & Hx & K) & _). destruct (P v Hv) as (_ & L).
    assert (X := L x (S n) _ Hx (cwalk_snoc G x n _ u v _ K H)). lia.
  Qed.
  Lemma reweight_ok g distances : al_rep g G -> wrep (al_weights g) G -> dg_ok G -> (forall v, In v (fst G) -> sdget distances v = Some (Some (h v))) ->
    wp (j_reweight g distances) (fun g' => al_rep g' G' /\ wrep (al_weights g') G').
  Proof.
    intros R W OK HD. unfold j_reweight. apply wp_bind. set (f := fun x : string * edge => (fst x, (e_src (snd x), e_tgt (snd x), e_val (snd x) + (h (e_src (snd x)) - h (e_tgt (snd x)))))).
    assert (K : wp (forM (al_weights g) (fun '(k, e) acc => e <- j_cost distances e ;; Ret (acc ++ [(k, e)])) []) (fun W' => W' = map f (al_weights g))).
    { apply (wp_forM _ _ (al_weights g) _ (fun p W' => W' = map f p)); [|reflexivity]. intros pre [k e] post W' EE ->. assert (He : In (k, e) (al_weights g)) by (rewrite EE; apply in_or_app; right; left; reflexivity).
      apply W in He as (u & v & c & -> & -> & Hc). destruct (ok_in _ OK u v (cost_edge _ _ _ _ Hc)) as [Hu Hv]. unfold j_cost, dgetE. cbn [e_src e_tgt e_val fst snd]. rewrite (HD u Hu), (HD v Hv). cbn [bind]. apply wp_ret. rewrite map_app. reflexivity. }
    apply (wp_mono _ _ _ _ K). intros W' ->. apply wp_ret. split.
    - destruct R as [R1 R2]. constructor; cbn [al_vertices al_nodes]; [exact R1|]. intros x. rewrite R2. change (fst G') with (fst G). destruct (mem x (fst G)); [|reflexivity]. unfold nd, G', reweighted. cbn [snd]. rewrite outs_map by reflexivity. reflexivity.
    - cbn [al_weights]. destruct W as [W1 W2]. split; [rewrite map_map; cbn [f fst]; exact W1|]. intros k e. rewrite in_map_iff. split.
      + intros ([k0 e0] & E & H). apply W2 in H as (u & v & c & -> & -> & Hc). unfold f in E. cbn [e_src e_tgt e_val fst snd] in E. injection E as <- <-. exists u, v, (c + (h u - h v)). split; [reflexivity|]. split; [reflexivity|]. apply rw_cost. replace (c + (h u - h v) - (h u - h v)) with c by lia. exact Hc.
      + intros (u & v & c & -> & -> & Hc). apply rw_cost in Hc. exists (ekey u v, (u, v, c - (h u - h v))). split; [|apply W2; exists u, v, (c - (h u - h v)); auto]. unfold f. cbn [e_src e_tgt e_val fst snd]. replace (c - (h u - h v) + (h u - h v)) with c by lia. reflexivity.
  Qed.
End Reweight.

(** ** the rows *)
Section Rows.
  Variable g : al.
  Variable G : dg.
  Variable h : string -> Z.
  Variable distances : list (string * option Z).
  Let G' := reweighted G h.
  Hypothesis R : al_rep g G'.
  Hypothesis W : wrep (al_weights g) G'.
  Hypothesis OK : dg_ok G.
  Hypothesis WT : weighted G.
  Hypothesis P : potential G h.
  Hypothesis HD : forall v, In v (fst G) -> sdget distances v = Some (Some (h v)).

  (** what one row says *)
  Definition row_ok (u : string) (o : option Z) (x : option string) (v : string) : Prop :=
    (match o with Some d => exists n, cwalk G u n d v | None => True end) /\
    (no_detour G' u -> match o with Some d => least_cost G u v d | None => ~ reachable G u v end) /\
    match x with
    | Some y => y = u /\ (v = u \/ o = None \/ exists c, has_cost G u v c /\ o = Some c)
    | None => exists p c d, p <> u /\ has_cost G p v c /\ least_cost G u p d /\ o = Some (d + c)
    end.
  Lemma rep' : represents (al_view g) G'.
  Proof. apply al_rep_represents; [exact R|apply rw_ok; exact OK]. Qed.
  Lemma net' : network G'.
  Proof. split; [apply rw_weighted; exact WT|apply rw_nonneg; assumption]. Qed.
  Lemma row_done u : In u (fst G) -> wp (j_row g distances u) (fun '(drow, nrow) => map fst drow = fst G /\ forall v, In v (fst G) -> exists o x, sdget drow v = Some o /\ sdget nrow v = Some x /\ row_ok u o x v).
  Proof.
    intros Hu. unfold j_row. destruct (C79_dijkstra_sound_partial (al_view g) G' u rep' W net' Hu) as (dist & pred & E & T). rewrite E. cbn [bind]. rewrite (rep_v _ _ R). change (fst G') with (fst G).
    assert (Ex : no_detour G' u -> exact_distances G' u dist). { intros ND. destruct (C79_dijkstra_exact_partial (al_view g) G' u rep' W net' Hu ND) as (dist' & pred' & E' & _ & X & _). rewrite E in E'. injection E' as <- <-. exact X. }
    assert (NV := ok_v _ OK).
    assert (K : wp (forM (fst G) (fun v '(drow, nrow) =>
        p <- dgetE pred v ;;
        let nrow := sdset nrow v (match p with None => Some u | Some w => if String.eqb w u then Some u else None end) in
        match sdget dist v with
        | Some d => du <- dgetE distances u ;; dv <- dgetE distances v ;; Ret (sdset drow v (oadd (osub d du) dv), nrow)
        | None => Ret (sdset drow v None, nrow)
        end) ([], [])) (fun '(drow, nrow) => map fst drow = fst G /\ forall v, In v (fst G) -> exists o x, sdget drow v = Some o /\ sdget nrow v = Some x /\ row_ok u o x v)).
    { apply (wp_forM _ _ (fst G) _ (fun p '(drow, nrow) => map fst drow = p /\ forall v, In v p -> exists o x, sdget drow v = Some o /\ sdget nrow v = Some x /\ row_ok u o x v)); [|split; [reflexivity|intros v []]].
      intros pre v post [drow nrow] EV (KD & IH). assert (Hv : In v (fst G)) by (rewrite EV; apply in_or_app; right; left; reflexivity).
      assert (Nv : ~ In v pre) by (rewrite EV in NV; apply NoDup_remove_2 in NV; intros X; apply NV, in_or_app; auto).
      destruct (all_listed _ _ _ _ T v Hv) as ((o & Eo) & p & Ep). unfold dgetE. rewrite Ep, Eo, (HD u Hu), (HD v Hv). cbn [bind]. apply wp_ret. split.
      - rewrite sset_keys, KD. rewrite (proj2 (mem_false v pre) Nv). reflexivity.
      - intros y Hy. apply in_app_or in Hy as [Hy|[<-|[]]].
        + destruct (IH y Hy) as (o' & x' & A & B & C). exists o', x'. rewrite !sget_set_ne by (intros ->; contradiction). auto.
        + eexists. eexists. rewrite !sget_set_eq. split; [reflexivity|]. split; [reflexivity|]. clear IH KD. split; [|split].
          * destruct o as [d|]; cbn [osub oadd]; [|exact I]. destruct (real_cost _ _ _ _ T v d Eo) as (n & K). exists n. apply (rw_walk G h) in K. replace (d - h u + h v) with (d - h u + h v) by lia. exact K.
          * intros ND. destruct (Ex ND v Hv) as (o' & Eo' & X). rewrite Eo in Eo'. injection Eo' as <-. destruct o as [d|]; cbn [osub oadd]; [apply (rw_least G h) in X; exact X|]. intros Y. apply X. apply (rw_reach G h). exact Y.
          * destruct p as [p|].
            -- destruct (last_step _ _ _ _ T v p Hv Ep) as (Nvs & c & d & Hc & Ed & Hl & Ev). rewrite Eo in Ev. injection Ev as ->. apply (rw_cost G h) in Hc. cbn [osub oadd]. destruct (SE p u) as [->|Np].
               ++ split; [reflexivity|]. right. right. exists (c - (h u - h v)). split; [exact Hc|]. rewrite (at_source _ _ _ _ T) in Ed. injection Ed as <-. f_equal. lia.
               ++ apply (rw_least G h) in Hl. exists p, (c - (h p - h v)), (d - h u + h p). split; [exact Np|]. split; [exact Hc|]. split; [exact Hl|]. f_equal. lia.
            -- split; [reflexivity|]. destruct (no_step _ _ _ _ T v Hv Ep) as [->|X]; [auto|]. right. left. rewrite Eo in X. injection X as ->. reflexivity. }
    exact K.
  Qed.
  Lemma rows_done : wp (j_rows g distances) (fun '(ad, an) => map fst ad = fst G /\ map fst an = fst G /\ (forall u drow, sdget ad u = Some drow -> map fst drow = fst G) /\
    forall u v, In u (fst G) -> In v (fst G) -> exists o x, entry ad u v = Some o /\ entry an u v = Some x /\ row_ok u o x v).
  Proof.
    unfold j_rows. rewrite (rep_v _ _ R). change (fst G') with (fst G). assert (NV := ok_v _ OK).
    assert (K : wp (forM (fst G) (fun u '(all_distances, all_next_vertex) => ' (drow, nrow) <- j_row g distances u ;; Ret (sdset all_distances u drow, sdset all_next_vertex u nrow)) ([], []))
      (fun '(ad, an) => map fst ad = fst G /\ map fst an = fst G /\ (forall u drow, sdget ad u = Some drow -> map fst drow = fst G) /\ forall u v, In u (fst G) -> In v (fst G) -> exists o x, entry ad u v = Some o /\ entry an u v = Some x /\ row_ok u o x v)).
    { apply (wp_forM _ _ (fst G) _ (fun p '(ad, an) => map fst ad = p /\ map fst an = p /\ (forall u drow, sdget ad u = Some drow -> map fst drow = fst G) /\ forall u v, In u p -> In v (fst G) -> exists o x, entry ad u v = Some o /\ entry an u v = Some x /\ row_ok u o x v)).
      - intros pre u post [ad an] EV (K1 & K2 & K3 & IH). assert (Hu : In u (fst G)) by (rewrite EV; apply in_or_app; right; left; reflexivity).
        assert (Nu : ~ In u pre) by (rewrite EV in NV; apply NoDup_remove_2 in NV; intros X; apply NV, in_or_app; auto).
        apply wp_bind. apply (wp_mono _ _ _ _ (row_done u Hu)). intros [drow nrow] (KD & RO). apply wp_ret. split; [rewrite sset_keys, K1, (proj2 (mem_false u pre) Nu); reflexivity|]. split; [rewrite sset_keys, K2, (proj2 (mem_false u pre) Nu); reflexivity|]. split.
        + intros y r Hr. rewrite sget_set in Hr. destruct (SE y u); [injection Hr as <-; exact KD|apply (K3 y r Hr)].
        + intros y v Hy Hv. unfold entry. apply in_app_or in Hy as [Hy|[<-|[]]].
          * rewrite !sget_set_ne by (intros ->; contradiction). apply (IH y v Hy Hv).
          * rewrite !sget_set_eq. apply (RO v Hv).
      - split; [reflexivity|]. split; [reflexivity|]. split; [intros u drow X; discriminate X|]. intros u v []. }
    exact K.
  Qed.
End Rows.

(** ** the whole run *)
Lemma johnson_run g G : al_rep g G -> wrep (al_weights g) G -> dg_ok G -> weighted G -> ~ In jq (fst G) ->
  match johnson g with
  | (g', Ret (ad, an)) => ~ has_negative_cycle G /\ exists h, potential G h /\ al_rep g' (reweighted G h) /\ wrep (al_weights g') (reweighted G h) /\
      map fst ad = fst G /\ map fst an = fst G /\ (forall u drow, sdget ad u = Some drow -> map fst drow = fst G) /\
      forall u v, In u (fst G) -> In v (fst G) -> exists o x, entry ad u v = Some o /\ entry an u v = Some x /\ row_ok G h u o x v
  | (g', Raise e) => e = ValueError /\ has_negative_cycle G /\ al_rep g' (with_source G jq) /\ wrep (al_weights g') (with_source G jq) /\ dg_ok (with_source G jq)
  | (g', OutOfFuel) => False
  end.
Proof.
  intros R W OK WT NQ. unfold johnson. assert (K1 := grow_ok g G R W OK NQ). apply wp_ex in K1 as (g1 & E1 & R1 & W1 & O1). rewrite E1. cbn [jstep].
  assert (B := C78_bellman_ford_exact (al_view g1) (with_source G jq) jq (al_rep_represents _ _ R1 O1) W1 (ws_weighted G WT) ltac:(apply in_or_app; right; left; reflexivity)).
  destruct (bellman_ford_all (al_view g1) jq) as [[dist pr]|e|]; cbn [jstep]; [|destruct B as [-> B]; rewrite (ws_neg G OK NQ) in B; auto|exact B].
  destruct B as (NN & KD & _ & BL & BR & _). rewrite (ws_neg G OK NQ) in NN.
  assert (HH : exists h, forall v, In v (fst G) -> sdget dist v = Some (Some (h v)) /\ least_cost (with_source G jq) jq v (h v)).
  { exists (fun v => match sdget dist v with Some (Some d) => d | _ => 0 end). intros v Hv. destruct (sget_some dist v) as [o Eo]; [rewrite KD; apply in_or_app; auto|]. rewrite Eo. apply sget_In in Eo. destruct o as [d|]; [split; [reflexivity|]; apply BL; exact Eo|]. exfalso. apply (BR v Eo). apply ws_reach. exact Hv. }
  destruct HH as (h & HH). assert (P : potential G h).
  { intros v Hv. destruct (HH v Hv) as (_ & (n & K) & L). split.
    - destruct (ws_walk G OK NQ _ _ _ K) as [(_ & _ & ->)|(u & m & _ & Hu & X)]; [contradiction|]. exists u, m. auto.
    - intros u m w Hu X. destruct (ws_walk' G u m w v Hu X) as (k & Y). apply (L k w Y). }
  assert (HD : forall v, In v (fst G) -> sdget dist v = Some (Some (h v))) by (intros v Hv; apply (HH v Hv)).
  assert (K2 := shrink_ok g1 G R1 W1 O1 OK NQ). apply wp_ex in K2 as (g2 & E2 & R2 & W2). rewrite E2. cbn [jstep].
  assert (K3 := reweight_ok G h g2 dist R2 W2 OK HD). apply wp_ex in K3 as (g3 & E3 & R3 & W3). rewrite E3. cbn [jstep].
  assert (K4 := rows_done g3 G h dist R3 W3 OK WT P HD). apply wp_ex in K4 as ([ad an] & E4 & K4). rewrite E4. split; [exact NN|]. exists h. auto.
Qed.
