(** Kruskal on the model (C81). *)
From Coq Require Import Strings.String Strings.Ascii Relations.
From Verif Require Import Base DsfModel DsfSpec DsfProofs DsfProofs2 SortModel SortSpec SortProofs3 GraphModel GraphSpec GraphDict GraphProofs MstModel MstSpec MstProofs.
Import List.

(** ** sorting *)
Definition ascending {A} (key : A -> Z) (S : list A) : Prop := forall P e Q, S = P ++ e :: Q -> forall f, In f P -> key f <= key e.
Lemma sort_insert_perm {A} (key : A -> Z) x l : Permutation (sort_insert key x l) (x :: l).
Proof. induction l as [|y l IH]; cbn [sort_insert]; [reflexivity|]. destruct (key x <=? key y); [reflexivity|]. rewrite IH. apply perm_swap. Qed.
Lemma py_sorted_perm {A} (key : A -> Z) l : Permutation (py_sorted key l) l.
Proof. induction l as [|x l IH]; cbn [py_sorted fold_right]; [reflexivity|]. rewrite sort_insert_perm. apply perm_skip. exact IH. Qed.
Lemma asc_cons {A} (key : A -> Z) x l : ascending key l -> (forall y, In y l -> key x <= key y) -> ascending key (x :: l).
Proof.
  intros H1 H2 P e Q E f Hf. destruct P as [|p P]; [destruct Hf|]. injection E as <- E. destruct Hf as [<-|Hf]; [apply H2; rewrite E; apply in_or_app; right; left; reflexivity|apply (H1 P e Q E f Hf)].
Qed.
Lemma asc_tail {A} (key : A -> Z) x l : ascending key (x :: l) -> ascending key l /\ forall y, In y l -> key x <= key y.
Proof.
  intros H. split.
  - intros P e Q E f Hf. apply (H (x :: P) e Q); [rewrite E; reflexivity|right; exact Hf].
  - intros y Hy. apply in_split in Hy as (P & Q & ->). apply (H (x :: P) y Q eq_refl). left. reflexivity.
Qed.
Lemma sort_insert_asc {A} (key : A -> Z) x l : ascending key l -> ascending key (sort_insert key x l).
Proof.
  induction l as [|y l IH]; intros H; cbn [sort_insert].
  - intros P e Q E f Hf. destruct P as [|p P]; [destruct Hf|]. injection E as _ E. destruct P; discriminate.
  - apply asc_tail in H as [H1 H2]. destruct (Z.leb_spec (key x) (key y)) as [L|L].
    + apply asc_cons; [apply asc_cons; assumption|]. intros z [<-|Hz]; [exact L|]. specialize (H2 z Hz). lia.
    + apply asc_cons; [apply IH; exact H1|]. intros z Hz. apply (Permutation_in z (sort_insert_perm key x l)) in Hz. destruct Hz as [<-|Hz]; [lia|apply H2; exact Hz].
Qed.
Lemma py_sorted_asc {A} (key : A -> Z) l : ascending key (py_sorted key l).
Proof. induction l as [|x l IH]; cbn [py_sorted fold_right]; [intros P e Q E; destruct P; discriminate|]. apply sort_insert_asc. exact IH. Qed.
Definition sorts_edges (g : gview) (r : res (list (string * edge))) : Prop := wp r (fun S => Permutation S (gv_weights g) /\ ascending item_value S).
Lemma sort_edges_ok g : sorts_edges g (sort_edges g).
Proof. split; [apply py_sorted_perm|apply py_sorted_asc]. Qed.
Lemma nth_split_zn {A} (P : list (option A)) (e : option A) Q : zn None (P ++ e :: Q) (len P) = e.
Proof. unfold zn, len. rewrite Nat2Z.id. rewrite app_nth2 by lia. rewrite Nat.sub_diag. reflexivity. Qed.
Lemma sort_edges_parallel_ok n g : 0 < n -> gv_weights g <> [] -> sorts_edges g (sort_edges_parallel n g).
Proof.
  intros Hn NE. unfold sorts_edges, sort_edges_parallel. set (edges := map Some (gv_weights g)). set (le := fun u v : string * edge => item_value u <= item_value v).
  assert (L : 0 < len edges). { unfold edges, len. rewrite map_length. destruct (gv_weights g); [congruence|simpl; lia]. }
  assert (D : decides (fun u v => item_value u <=? item_value v) le).
  { unfold le. constructor; [intros x y H; apply Z.leb_le; exact H|intros x y H; apply Z.leb_gt in H; lia|intros x y z H1 H2; lia]. }
  apply wp_bind. eapply wp_mono; [apply (merge_sort_ok _ le D n edges 0 (len edges - 1)); lia|]. intros a [[[P _] SR] _].
  assert (X : exists S, a = map Some S /\ Permutation S (gv_weights g)).
  { unfold edges in P. apply Permutation_sym, Permutation_map_inv in P as (S & -> & P). exists S. split; [reflexivity|]. apply Permutation_sym. exact P. }
  destruct X as (S & -> & PS). 
  assert (F : forall S acc, forM (map (@Some (string * edge)) S) (fun c acc => match c with Some x => Ret (acc ++ [x]) | None => Raise TypeError end) acc = Ret (acc ++ S)).
  { induction S0 as [|x S0 IH]; intros acc; cbn [map forM bind]; [rewrite app_nil_r; reflexivity|]. rewrite IH, <- app_assoc. reflexivity. }
  rewrite F. cbn [wp app]. split; [exact PS|]. intros P1 e Q E f Hf. apply in_split in Hf as (P2 & P3 & E2).
  assert (LE : len edges = len S). { unfold edges, len. rewrite map_length. f_equal. symmetry. apply Permutation_length. exact PS. }
  assert (X := SR (len P2) (len P1)). assert (L1 : len P1 < len S) by (rewrite E; unfold len; rewrite app_length; simpl; lia). assert (L2 : len P2 < len P1) by (rewrite E2; unfold len; rewrite app_length; simpl; lia).
  specialize (X (Nat2Z.is_nonneg _) ltac:(lia) ltac:(lia)).
  rewrite E, map_app in X. cbn [map] in X. replace (len P1) with (len (map (@Some (string * edge)) P1)) in X by (unfold len; rewrite map_length; reflexivity). rewrite nth_split_zn in X.
  rewrite E2, map_app in X. cbn [map] in X. rewrite <- app_assoc in X. cbn [app] in X. replace (len P2) with (len (map (@Some (string * edge)) P2)) in X by (unfold len; rewrite map_length; reflexivity). rewrite nth_split_zn in X. exact X.
Qed.

(** ** the loop *)
Lemma NoDup_app_l {A} (a b : list A) : NoDup (a ++ b) -> NoDup a.
Proof. induction a as [|x a IH]; intros N; [constructor|]. cbn [app] in N. inversion N as [|? ? H1 H2]; subst. constructor; [intros X; apply H1; apply in_or_app; left; exact X|apply IH; assumption]. Qed.
Section Loop.
  Context (M : Type) (add : M -> string -> string -> option Z -> res M) (V : list string) (NV : NoDup V) (S : list (string * edge)) (NS : NoDup (map snd S))
          (WS : within V (map fst (map snd S))) (AS : ascending item_value S).
  Context (Minv : M -> list (string * string * Z) -> Prop).
  Hypothesis add_ok : forall mst T u v c, Minv mst T -> incl T (map snd S) -> In (u, v, c) (map snd S) -> ~ linked T u v ->
    wp (mst <- add mst u v (Some c) ;; add mst v u (Some c)) (fun mst => Minv mst (T ++ [(u, v, c)])).
  Lemma make_all l : forall t P ks, good String.eqb ks [] t P -> NoDup (ks ++ l) -> exists P', good String.eqb (ks ++ l) [] (fold_left (make_set String.eqb) l t) P'.
  Proof.
    induction l as [|k l IH]; intros t P ks G N; cbn [fold_left]; [exists P; rewrite app_nil_r; exact G|].
    assert (Nk : ~ In k ks) by (intros X; apply NoDup_remove_2 in N; apply N; apply in_or_app; left; exact X).
    destruct (step_make String.eqb SE ks [] t P k G Nk) as (P' & G' & _). destruct (IH _ P' (ks ++ [k]) G') as (P2 & G2); [rewrite <- app_assoc; exact N|]. exists P2. rewrite <- app_assoc in G2. exact G2.
  Qed.
  Lemma kruskal_loop_ok mst0 : Minv mst0 [] -> wp (kruskal_loop add mst0 V S) (fun mst => exists T, Minv mst T /\ greedy (map snd S) T).
  Proof.
    intros H0. unfold kruskal_loop. apply wp_bind.
    destruct (make_all V [] (fun k => [k]) []) as (P0 & G0); [split; [apply inv_empty|reflexivity|intros a b []|intros x y []]|exact NV|]. cbn [app] in G0.
    eapply wp_mono; [apply (wp_forM _ _ S _ (fun pre (st : M * list (string * (string * Z))) => exists T us P, Minv (fst st) T /\ greedy (map snd pre) T /\ good String.eqb V us (snd st) P /\ (forall x y, connected us x y <-> linked T x y)))|].
    - intros pre [k [[u v] c]] post [mst t] E (T & us & P & HM & HG & HD & HC). cbn [fst snd] in *. unfold e_src, e_tgt, e_val. cbn [fst snd].
      assert (HI : In (u, v, c) (map snd S)) by (rewrite E, map_app; apply in_or_app; right; left; reflexivity).
      destruct (WS u v) as [Hu Hv]; [apply in_map_iff; exists (u, v, c); auto|].
      assert (IP : incl (map snd (pre ++ [(k, (u, v, c))])) (map snd S)). { rewrite E. apply incl_map. intros x Hx. apply in_app_or in Hx as [Hx|[<-|[]]]; apply in_or_app; [left; exact Hx|right; left; reflexivity]. }
      assert (IT : incl T (map snd S)). { intros e He. apply IP. rewrite map_app. apply in_or_app. left. apply (gr_incl _ _ HG). exact He. }
      pose proof (g_inv _ _ _ _ _ HD) as I. pose proof (g_keys _ _ _ _ _ HD) as K.
      rewrite (find_root_ok' String.eqb SE t P u I) by (rewrite K; exact Hu). cbn [bind]. rewrite (find_root_ok' String.eqb SE t P v I) by (rewrite K; exact Hv). cbn [bind].
      assert (R := g_conn _ _ _ _ _ HD u v Hu Hv).
      destruct (greedy_step V NV (map snd S) WS (map snd pre) T u v c HG) as [G1 G2].
      { change [(u, v, c)] with (map (@snd string _) [(k, (u, v, c))]). rewrite <- map_app. rewrite E, map_app in NS. cbn [map snd] in NS. rewrite map_app. cbn [map snd].
        change (NoDup (map snd pre ++ [(u, v, c)] ++ map snd post)) in NS. rewrite app_assoc in NS. exact (NoDup_app_l _ _ NS). }
      { change [(u, v, c)] with (map (@snd string _) [(k, (u, v, c))]). rewrite <- map_app. exact IP. }
      { intros e He. apply in_map_iff in He as (f & <- & Hf). apply (AS pre _ post E f Hf). }
      destruct (SE (rt P u) (rt P v)) as [Er|Er]; cbn [negb].
      + cbn [wp fst snd]. exists T, us, P. rewrite map_app. split; [exact HM|]. split; [|auto]. apply G1. apply HC, R. exact Er.
      + assert (NL : ~ linked T u v) by (intros X; apply Er, R, HC; exact X).
        assert (A := add_ok mst T u v c HM IT HI NL). apply wp_ex in A as (mst2 & E2 & HM2). destruct (add mst u v (Some c)) as [m1| |]; cbn [bind] in *; try discriminate. rewrite E2. cbn [bind].
        destruct (step_union String.eqb SE V us t P u v HD Hu Hv) as (t' & P' & Eu & HD' & _). rewrite Eu. cbn [bind wp fst snd].
        exists (T ++ [(u, v, c)]), ((u, v) :: us), P'. rewrite map_app. split; [exact HM2|]. split; [apply G2; exact NL|]. split; [exact HD'|].
        intros x y. unfold linked. rewrite map_app. cbn [map fst]. split; apply conn_sub.
        * intros a b [[= <- <-]|H]; [apply rst_step; apply in_or_app; right; left; reflexivity|]. assert (X : linked T a b) by (apply HC, rst_step; exact H). eapply conn_mono; [|exact X]. intros p Hp. apply in_or_app. left. exact Hp.
        * intros a b H. apply in_app_or in H as [H|[[= <- <-]|[]]]; [|apply rst_step; left; reflexivity]. assert (X : connected us a b) by (apply HC, rst_step; exact H). eapply conn_mono; [|exact X]. intros p Hp. right. exact Hp.
    - exists [], [], P0. cbn [fst snd]. split; [exact H0|]. split; [apply greedy_nil|]. split; [exact G0|]. intros x y. reflexivity.
    - intros [mst t] (T & us & P & HM & HG & _). cbn [wp]. exists T. auto.
  Qed.
End Loop.

(** ** the tree's edge_weights: exactly the chosen edges in both directions *)
Definition both_ways (T : list (string * string * Z)) : list (string * edge) :=
  flat_map (fun e => let '(u, v, c) := e in [(ekey u v, (u, v, c)); (ekey v u, (v, u, c))]) T.
Lemma both_ways_In T k e : In (k, e) (both_ways T) <-> exists u v c, (In (u, v, c) T \/ In (v, u, c) T) /\ k = ekey u v /\ e = (u, v, c).
Proof.
  unfold both_ways. rewrite in_flat_map. split.
  - intros ([[u v] c] & HT & [[= <- <-]|[[= <- <-]|[]]]); [exists u, v, c|exists v, u, c]; auto.
  - intros (u & v & c & [H|H] & -> & ->); [exists (u, v, c)|exists (v, u, c)]; (split; [exact H|]); [left; reflexivity|right; left; reflexivity].
Qed.
Lemma both_ways_app T1 T2 : both_ways (T1 ++ T2) = both_ways T1 ++ both_ways T2.
Proof. apply flat_map_app. Qed.
Lemma both_ways_fresh T u v : (forall a b c, In (a, b, c) T -> no_us a = true /\ no_us b = true) -> no_us u = true -> ~ linked T u v -> ~ In (ekey u v) (map fst (both_ways T)).
Proof.
  intros HN Hu NL X. apply in_map_iff in X as ([k e] & E & X). cbn [fst] in E. subst k. apply both_ways_In in X as (a & b & c & HT & E & ->).
  assert (Ha : no_us a = true) by (destruct HT as [HT|HT]; apply HN in HT; tauto). apply ekey_inj in E as [-> ->]; [|assumption|assumption]. apply NL. destruct HT as [HT|HT].
  - apply rst_step. apply in_map_iff. exists (a, b, c). auto.
  - apply rst_sym, rst_step. apply in_map_iff. exists (b, a, c). auto.
Qed.
Lemma sset_both T u v c : (forall a b c, In (a, b, c) T -> no_us a = true /\ no_us b = true) -> no_us u = true -> no_us v = true -> ~ linked T u v ->
  sdset (sdset (both_ways T) (ekey u v) (u, v, c)) (ekey v u) (v, u, c) = both_ways (T ++ [(u, v, c)]).
Proof.
  intros HN Hu Hv NL. rewrite (sset_new (both_ways T)) by (apply both_ways_fresh; assumption). rewrite sset_new.
  - rewrite both_ways_app, <- app_assoc. reflexivity.
  - rewrite map_app. intros X. apply in_app_or in X as [X|[X|[]]].
    + apply (both_ways_fresh T v u); [exact HN|exact Hv| |exact X]. intros L. apply NL, rst_sym. exact L.
    + cbn [fst] in X. apply ekey_inj in X as [-> _]; [|assumption|assumption]. apply NL, rst_refl.
Qed.

Lemma priced_In G u v c : In (u, v, c) (priced G) <-> has_cost G u v c.
Proof.
  unfold priced, has_cost. rewrite in_flat_map. split.
  - intros ([[a b] [d|]] & HI & X); cbn [fst snd] in X; [|destruct X]. destruct X as [[= <- <- <-]|[]]. exact HI.
  - intros H. exists (u, v, Some c). split; [exact H|]. left. reflexivity.
Qed.
Lemma priced_nodup G : dg_ok G -> NoDup (priced G).
Proof.
  intros OK. assert (N := ok_e _ OK). unfold dg_edges, priced in *. induction (snd G) as [|[[a b] [d|]] E IH]; cbn [flat_map fst snd map app] in *; [constructor| |]; inversion N; subst; [|auto].
  constructor; [|auto]. intros X. apply H1. apply in_flat_map in X as ([[a' b'] [d'|]] & HI & Y); [|destruct Y]. destruct Y as [[= <- <- <-]|[]]. apply in_map_iff. exists (a', b', Some d'). auto.
Qed.
Lemma weights_priced g G : dg_ok G -> represents_costs g G -> Permutation (map snd (gv_weights g)) (priced G).
Proof.
  intros OK [ND H]. apply NoDup_Permutation; [|apply priced_nodup; exact OK|].
  - assert (X : forall k e, In (k, e) (gv_weights g) -> k = ekey (e_src e) (e_tgt e)). { intros k e HI. apply H in HI as (u & v & c & -> & -> & _). reflexivity. }
    clear H. induction (gv_weights g) as [|[k e] l IH]; cbn [map snd fst] in *; [constructor|]. inversion ND; subst. constructor; [|apply IH; [assumption|intros k' e' HI; apply X; right; exact HI]].
    intros HI. apply in_map_iff in HI as ([k' e'] & Ee & HI). cbn [snd] in Ee. subst e'. apply H1. rewrite (X k e (or_introl eq_refl)). rewrite <- (X k' e (or_intror HI)). apply in_map_iff. exists (k', e). auto.
  - intros [[u v] c]. rewrite priced_In. split.
    + intros HI. apply in_map_iff in HI as ([k e] & Ee & HI). cbn [snd] in Ee. subst e. apply H in HI as (u' & v' & c' & _ & [= -> -> ->] & HC). exact HC.
    + intros HC. apply in_map_iff. exists (ekey u v, (u, v, c)). split; [reflexivity|]. apply H. exists u, v, c. auto.
Qed.

Section K.
  Context (G : dg) (OK : dg_ok G).
  Notation V := (fst G).
  Lemma prep g r : represents_costs g G -> sorts_edges g r -> exists S, r = Ret S /\ NoDup (map snd S) /\ within V (map fst (map snd S)) /\ ascending item_value S /\ Permutation (map snd S) (priced G).
  Proof.
    intros HC HS. apply wp_ex in HS as (S & -> & P & A). exists S. split; [reflexivity|].
    assert (PP : Permutation (map snd S) (priced G)) by (rewrite <- (weights_priced g G OK HC); apply Permutation_map; exact P).
    split; [eapply Permutation_NoDup; [apply Permutation_sym; exact PP|apply priced_nodup; exact OK]|]. split; [|auto].
    intros a b X. apply in_map_iff in X as ([[a' b'] c] & [= -> ->] & X). apply (ok_in _ OK). apply (cost_edge G a b c). apply priced_In. eapply Permutation_in; [exact PP|exact X].
  Qed.
  Lemma kruskal_al_ok g r : al_rep g G -> represents_costs (al_view g) G -> sorts_edges (al_view g) (r (al_view g)) ->
    exists mst g' T, kruskal_al r g = Ret (mst, g') /\ minimum_spanning_forest (priced G) T /\ al_vertices mst = V /\ al_weights mst = both_ways T.
  Proof.
    intros HR HC HS. destruct (prep _ _ HC HS) as (S & E & NS & WS & AS & PP). unfold kruskal_al. rewrite E. cbn [bind].
    assert (HO : forall a b c, In (a, b, c) (map snd S) -> (ordinary a /\ ordinary b) /\ In a V /\ In b V).
    { intros a b c H. assert (X : has_cost G a b c) by (apply priced_In; eapply Permutation_in; [exact PP|exact H]). split; [eapply cost_ord; [exact OK|exact X]|]. apply (ok_in _ OK). eapply cost_edge. exact X. }
    assert (W : wp (kruskal_loop al_add_edge (mst_object_al g) V S) (fun mst => exists T, (exists G', al_rep mst G' /\ dg_ok G' /\ fst G' = V /\ al_weights mst = both_ways T) /\ greedy (map snd S) T)).
    { apply (kruskal_loop_ok al al_add_edge V (ok_v _ OK) S NS WS AS (fun mst T => exists G', al_rep mst G' /\ dg_ok G' /\ fst G' = V /\ al_weights mst = both_ways T)).
      - intros mst T u v c (G' & R & O & F & EW) IT HI NL. destruct (HO u v c HI) as ((Ou & Ov) & Hu & Hv). rewrite <- F in Hu, Hv.
        destruct (step_add_edge mst G' u v (Some c) R O Ou Ov Hu Hv) as (m1 & E1 & R1 & W1). rewrite E1. cbn [bind].
        assert (O1 := dg_step_ok G' (GAddE u v (Some c)) O). specialize (O1 (Forall_cons _ Ou (Forall_cons _ Ov (Forall_nil _)))).
        destruct (step_add_edge m1 _ v u (Some c) R1 O1 Ov Ou) as (m2 & E2 & R2 & W2); [rewrite fst_addE; exact Hv|rewrite fst_addE; exact Hu|]. rewrite E2. cbn [wp].
        eexists. split; [exact R2|]. split; [apply dg_step_ok; [exact O1|exact (Forall_cons _ Ov (Forall_cons _ Ou (Forall_nil _)))]|]. split; [rewrite !fst_addE; exact F|]. rewrite W2, W1, EW. apply sset_both.
        + intros a b d HT. apply IT in HT. apply HO in HT as ((Oa & Ob) & _). split; apply ordinary_no_us; assumption.
        + apply ordinary_no_us, Ou.
        + apply ordinary_no_us, Ov.
        + exact NL.
      - exists G. split; [|auto]. unfold mst_object_al. destruct HR. constructor; assumption. }
    rewrite (rep_v _ _ HR). apply wp_ex in W as (mst & EK & T & (G' & R & O & F & EW) & GR). rewrite EK. cbn [bind]. do 2 eexists. exists T. split; [reflexivity|].
    split; [apply (greedy_minimum V (ok_v _ OK) (map snd S) WS); [exact PP|apply priced_nodup; exact OK|exact GR]|]. split; [rewrite (rep_v _ _ R); exact F|exact EW].
  Qed.
  Lemma am_add_ok g G' u v c : am_rep g G' -> dg_ok G' -> ordinary u -> ordinary v -> In u (fst G') -> In v (fst G') ->
    exists g', am_add_edge g u v (Some c) = Ret g' /\ am_rep g' (dg_step G' (GAddE u v (Some c))) /\ am_weights g' = sdset (am_weights g) (ekey u v) (u, v, c).
  Proof.
    intros R O Ou Ov Hu Hv. destruct (proj2 (amr_n _ _ R u) Hu) as [ru Eu]. destruct (proj2 (amr_n _ _ R v) Hv) as [rv Ev]. unfold am_add_edge. rewrite Eu, Ev.
    eexists. split; [reflexivity|]. split; [|reflexivity]. apply (am_set_rep g G' _ u v true ru); [exact R|exact Eu|apply fst_addE|].
    intros x y. destruct G' as [V' E']. cbn [fst] in *. apply mem_true in Hu, Hv. rewrite is_edge_addE by assumption.
    destruct (SE x u) as [->|]; cbn [andb]; [destruct (SE y v) as [->|]|]; tauto.
  Qed.
  Lemma kruskal_am_ok g r : am_rep g G -> represents_costs (am_view g) G -> sorts_edges (am_view g) (r (am_view g)) -> Forall ordinary V ->
    exists mst T, kruskal_am r g = Ret mst /\ minimum_spanning_forest (priced G) T /\ am_vertices mst = V /\ am_weights mst = both_ways T
      /\ exists G', am_rep mst G' /\ dg_ok G' /\ forall x y, is_edge G' x y <-> exists c, In (x, y, c) T \/ In (y, x, c) T.
  Proof.
    intros HR HC HS HV. destruct (prep _ _ HC HS) as (S & E & NS & WS & AS & PP). unfold kruskal_am. rewrite E. cbn [bind].
    assert (HO : forall a b c, In (a, b, c) (map snd S) -> (ordinary a /\ ordinary b) /\ In a V /\ In b V).
    { intros a b c H. assert (X : has_cost G a b c) by (apply priced_In; eapply Permutation_in; [exact PP|exact H]). split; [eapply cost_ord; [exact OK|exact X]|]. apply (ok_in _ OK). eapply cost_edge. exact X. }
    set (Minv := fun (mst : am) (T : list (string * string * Z)) => exists G', am_rep mst G' /\ dg_ok G' /\ fst G' = V /\ am_weights mst = both_ways T /\ forall x y, is_edge G' x y <-> exists c, In (x, y, c) T \/ In (y, x, c) T).
    assert (W : wp (kruskal_loop am_add_edge (mst_object_am g) V S) (fun mst => exists T, Minv mst T /\ greedy (map snd S) T)).
    { apply (kruskal_loop_ok am am_add_edge V (ok_v _ OK) S NS WS AS Minv).
      - intros mst T u v c (G' & R & O & F & EW & EE) IT HI NL. destruct (HO u v c HI) as ((Ou & Ov) & Hu & Hv). rewrite <- F in Hu, Hv.
        destruct (am_add_ok mst G' u v c R O Ou Ov Hu Hv) as (m1 & E1 & R1 & W1). rewrite E1. cbn [bind].
        assert (O1 := dg_step_ok G' (GAddE u v (Some c)) O). specialize (O1 (Forall_cons _ Ou (Forall_cons _ Ov (Forall_nil _)))).
        destruct (am_add_ok m1 _ v u c R1 O1 Ov Ou) as (m2 & E2 & R2 & W2); [rewrite fst_addE; exact Hv|rewrite fst_addE; exact Hu|]. rewrite E2. cbn [wp].
        eexists. split; [exact R2|]. split; [apply dg_step_ok; [exact O1|exact (Forall_cons _ Ov (Forall_cons _ Ou (Forall_nil _)))]|]. split; [rewrite !fst_addE; exact F|]. split.
        + rewrite W2, W1, EW. apply sset_both.
          * intros a b d HT. apply IT in HT. apply HO in HT as ((Oa & Ob) & _). split; apply ordinary_no_us; assumption.
          * apply ordinary_no_us, Ou.
          * apply ordinary_no_us, Ov.
          * exact NL.
        + intros x y. clear R1 R2 O1 E1 E2. apply mem_true in Hu, Hv. rewrite (surjective_pairing (dg_step G' (GAddE u v (Some c)))), is_edge_addE by (rewrite fst_addE; assumption).
          rewrite <- surjective_pairing. rewrite (surjective_pairing G'), is_edge_addE by assumption. rewrite <- surjective_pairing. rewrite EE. split.
          * intros [[-> ->]|[[-> ->]|[d [X|X]]]].
            -- exists c. right. apply in_or_app. right. left. reflexivity.
            -- exists c. left. apply in_or_app. right. left. reflexivity.
            -- exists d. left. apply in_or_app. left. exact X.
            -- exists d. right. apply in_or_app. left. exact X.
          * intros [d [X|X]]; apply in_app_or in X as [X|[[= -> -> ->]|[]]]; eauto.
      - exists (V, []). unfold mst_object_am. rewrite (amr_v _ _ HR). split; [apply am_new_rep|]. split; [apply dg0_ok; [apply (ok_v _ OK)|exact HV]|]. split; [reflexivity|]. split; [reflexivity|].
        intros x y. split; [intros []|intros (c & [[]|[]])]. }
    rewrite (amr_v _ _ HR). apply wp_ex in W as (mst & EK & T & (G' & R & O & F & EW & EE) & GR). rewrite EK. exists mst, T. split; [reflexivity|].
    split; [apply (greedy_minimum V (ok_v _ OK) (map snd S) WS); [exact PP|apply priced_nodup; exact OK|exact GR]|]. split; [rewrite (amr_v _ _ R); exact F|]. split; [exact EW|]. exists G'. auto.
  Qed.
End K.
Lemma forest_prefix T x : forest (T ++ [x]) -> forest T.
Proof.
  intros F T1 u v c T2 E L. apply (F T1 u v c (T2 ++ [x])); [rewrite E, <- app_assoc; reflexivity|]. unfold linked in *. rewrite app_assoc, map_app. eapply conn_mono; [|exact L]. intros p Hp. apply in_or_app. left. exact Hp.
Qed.
Lemma both_ways_holds T : forest T -> (forall a b c, In (a, b, c) T -> no_us a = true /\ no_us b = true) -> holds_both_ways (both_ways T) T.
Proof.
  intros F HN. split.
  - induction T as [|[[u v] c] T IH] using rev_ind; [constructor|]. assert (NL : ~ linked T u v). { intros L. apply (F T u v c []); [reflexivity|]. rewrite app_nil_r. exact L. }
    destruct (HN u v c) as [Hu Hv]; [apply in_or_app; right; left; reflexivity|].
    assert (HT : forall a b c, In (a, b, c) T -> no_us a = true /\ no_us b = true) by (intros a b d X; apply (HN a b d), in_or_app; left; exact X).
    rewrite <- sset_both by assumption. apply sset_nodup, sset_nodup. apply IH; [eapply forest_prefix; exact F|exact HT].
  - intros k e. rewrite both_ways_In. split; intros (u & v & c & H); exists u, v, c; tauto.
Qed.
Lemma both_ways_costs G T : dg_ok G -> minimum_spanning_forest (priced G) T -> holds_both_ways (both_ways T) T.
Proof.
  intros OK [[IC [F _]] _]. apply both_ways_holds; [exact F|]. intros a b c H. apply IC, priced_In in H. destruct (cost_ord G a b c OK H). split; apply ordinary_no_us; assumption.
Qed.
