(** Refinement proofs for the graph containers (C71-C73). *)
From Coq Require Import Strings.String Strings.Ascii.
From Verif Require Import Base DsfModel GraphModel GraphSpec GraphDict.
Import List.

(** ** facts about the abstract digraph *)
Definition outs (E : list (string * string * option Z)) (x : string) : list string :=
  map (fun e => snd (fst e)) (filter (fun e => String.eqb x (fst (fst e))) E).
Lemma outs_In E u v : In v (outs E u) <-> In (u, v) (map fst E).
Proof.
  unfold outs. rewrite !in_map_iff. split.
  - intros ([[a b] c] & Hb & HI). apply filter_In in HI as [HI He]. simpl in *. destruct (SE u a) as [->|]; [|discriminate]. subst. exists (a, v, c). split; [reflexivity|exact HI].
  - intros ([[a b] c] & Hb & HI). simpl in Hb. injection Hb as -> ->. exists (u, v, c). split; [reflexivity|]. apply filter_In. split; [exact HI|]. simpl. apply String.eqb_refl.
Qed.
Lemma outs_nodup E u : NoDup (map fst E) -> NoDup (outs E u).
Proof.
  unfold outs. induction E as [|[[a b] c] E IH]; simpl; intros H; [constructor|]. inversion H; subst. destruct (SE u a) as [->|]; simpl; [|auto].
  constructor; [|auto]. intros HI. apply H2. apply outs_In. exact HI.
Qed.
Lemma outs_app E1 E2 u : outs (E1 ++ E2) u = outs E1 u ++ outs E2 u.
Proof. unfold outs. rewrite filter_app, map_app. reflexivity. Qed.
Lemma outs_map (f : string * string * option Z -> string * string * option Z) E u : (forall e, In e E -> fst (f e) = fst e) -> outs (map f E) u = outs E u.
Proof.
  unfold outs. induction E as [|e E IH]; intros H; [reflexivity|]. simpl. rewrite (H e) by (left; reflexivity).
  assert (IH' := IH (fun e' He => H e' (or_intror He))). destruct (String.eqb u (fst (fst e))); simpl; [|exact IH'].
  rewrite (H e) by (left; reflexivity). f_equal. exact IH'.
Qed.
Lemma same_edge_spec u v e : reflect (fst e = (u, v)) (same_edge u v e).
Proof.
  destruct e as [[a b] c]. unfold same_edge. simpl. destruct (SE u a) as [->|]; simpl; [|constructor; congruence].
  destruct (SE v b) as [->|]; constructor; congruence.
Qed.
Lemma existsb_edge u v E : existsb (same_edge u v) E = mem v (outs E u).
Proof.
  destruct (mem_spec v (outs E u)) as [H|H].
  - apply outs_In in H. apply in_map_iff in H as (e & He & HI). apply existsb_exists. exists e. split; [exact HI|]. destruct (same_edge_spec u v e); congruence.
  - destruct (existsb _ E) eqn:X; [|reflexivity]. exfalso. apply H. apply existsb_exists in X as (e & HI & He). destruct (same_edge_spec u v e) as [Hf|]; [|discriminate].
    apply outs_In. apply in_map_iff. exists e. split; assumption.
Qed.
Lemma outs_rem_edge E u v x : outs (filter (fun e => negb (same_edge u v e)) E) x =
  if String.eqb x u then filter (fun y => negb (String.eqb v y)) (outs E x) else outs E x.
Proof.
  unfold outs. induction E as [|[[a b] c] E IH]; simpl; [destruct (String.eqb x u); reflexivity|].
  change (same_edge u v (a, b, c)) with (String.eqb u a && String.eqb v b). destruct (SE x a) as [->|Hx]; simpl.
  - rewrite (seqb_sym u a). destruct (SE a u) as [->|Hu]; simpl.
    + destruct (SE v b) as [->|]; simpl; [exact IH|]. rewrite String.eqb_refl. simpl. rewrite IH. reflexivity.
    + rewrite String.eqb_refl. simpl. rewrite IH. reflexivity.
  - destruct (SE u a) as [->|Hu]; simpl.
    + destruct (SE v b); simpl; [exact IH|]. destruct (SE x a); [contradiction|]. exact IH.
    + destruct (SE x a); [contradiction|]. exact IH.
Qed.
Lemma outs_rem_vertex E n x : x <> n ->
  outs (filter (fun e => negb (String.eqb n (fst (fst e)) || String.eqb n (snd (fst e)))) E) x = filter (fun y => negb (String.eqb n y)) (outs E x).
Proof.
  intros Hx. unfold outs. induction E as [|[[a b] c] E IH]; simpl; [reflexivity|].
  destruct (SE x a) as [->|Hxa]; simpl.
  - destruct (SE n a) as [->|]; [congruence|]. simpl. destruct (SE n b) as [->|]; simpl; [exact IH|]. rewrite String.eqb_refl. simpl. rewrite IH. reflexivity.
  - destruct (String.eqb n a || String.eqb n b); simpl; [exact IH|]. destruct (SE x a); [contradiction|]. exact IH.
Qed.
Lemma filter_id (f : string -> bool) l : (forall x, In x l -> f x = true) -> filter f l = l.
Proof. induction l as [|a l IH]; intros H; [reflexivity|]. simpl. rewrite (H a) by (left; reflexivity). f_equal. apply IH. intros x Hx. apply H. right. exact Hx. Qed.
Lemma map_fst_filter (f : string * string * option Z -> bool) E : NoDup (map fst E) -> NoDup (map fst (filter f E)).
Proof.
  induction E as [|e E IH]; simpl; intros H; [constructor|]. inversion H; subst. destruct (f e); simpl; [|auto]. constructor; [|auto].
  intros HI. apply H2. apply in_map_iff in HI as (e' & He & HI). apply filter_In in HI as [HI _]. apply in_map_iff. exists e'. split; assumption.
Qed.

Record dg_ok (G : dg) : Prop := {
  ok_v : NoDup (fst G); ok_ord : Forall ordinary (fst G); ok_e : NoDup (dg_edges G);
  ok_in : forall u v, is_edge G u v -> In u (fst G) /\ In v (fst G) }.

Lemma in_edges_filter f E (u v : string) : In (u, v) (map fst (filter f E)) -> In (u, v) (map fst (A := string * string * option Z) E).
Proof. rewrite !in_map_iff. intros (e & He & HI). apply filter_In in HI as [HI _]. exists e. split; assumption. Qed.

Lemma dg_step_ok G o : dg_ok G -> Forall ordinary (op_names o) -> dg_ok (dg_step G o).
Proof.
  destruct G as [V E]. intros [H1 H2 H3 H4] HO. unfold dg_edges, is_edge in *. simpl in *. destruct o as [n|n|u v c|u v]; simpl in *.
  - destruct (mem_spec n V) as [Hn|Hn]; [constructor; assumption|]. constructor; simpl; [|..|exact H3|].
    + apply (Permutation_NoDup (l := n :: V)); [apply Permutation_cons_append|constructor; assumption].
    + apply Forall_app. split; [exact H2|exact HO].
    + intros u v H. destruct (H4 u v H) as [A B]. split; apply in_or_app; left; assumption.
  - constructor; simpl.
    + apply NoDup_filter. exact H1.
    + apply Forall_forall. intros x Hx. apply filter_In in Hx as [Hx _]. rewrite Forall_forall in H2. auto.
    + apply map_fst_filter. exact H3.
    + intros u v H. assert (HE := in_edges_filter _ _ _ _ H). destruct (H4 u v HE) as [A B].
      unfold is_edge, dg_edges in H. simpl in H. apply in_map_iff in H as (e & He & HI). apply filter_In in HI as [_ HI]. rewrite He in HI. simpl in HI.
      apply negb_true_iff, orb_false_iff in HI as [X Y]. split; apply filter_In; split; auto; [rewrite X|rewrite Y]; reflexivity.
  - destruct (mem_spec u V) as [Hu|]; simpl; [|constructor; assumption]. destruct (mem_spec v V) as [Hv|]; simpl; [|constructor; assumption].
    rewrite existsb_edge. destruct (mem_spec v (outs E u)) as [He|He].
    + assert (EQ : map fst (map (fun e => if same_edge u v e then (u, v, match c with Some _ => c | None => snd e end) else e) E) = map fst E).
      { rewrite map_map. apply map_ext. intros e. destruct (same_edge_spec u v e); simpl; congruence. }
      constructor; unfold dg_edges, is_edge; simpl; [exact H1|exact H2|rewrite EQ; exact H3|]. intros a b. unfold dg_edges. simpl. rewrite EQ. apply H4.
    + constructor; unfold dg_edges, is_edge; simpl; [exact H1|exact H2| |].
      * rewrite map_app. apply (Permutation_NoDup (l := (u, v) :: map fst E)); [apply Permutation_cons_append|]. constructor; [|exact H3].
        intros H. apply He. apply outs_In. exact H.
      * intros a b. unfold dg_edges. simpl. rewrite map_app. intros H. apply in_app_or in H as [H|[[= <- <-]|[]]]; [apply H4; exact H|tauto].
  - constructor; unfold dg_edges, is_edge; simpl; [exact H1|exact H2|apply map_fst_filter; exact H3|].
    intros a b H. apply H4. eapply in_edges_filter. exact H.
Qed.

(** ** AdjacencyList *)
Definition nd (E : list (string * string * option Z)) (x : string) : node := mknode (outs E x) (outs E x).
Record al_rep (g : al) (G : dg) : Prop := {
  rep_v : al_vertices g = fst G;
  rep_n : forall x, sdget (al_nodes g) x = if mem x (fst G) then Some (nd (snd G) x) else None }.

Lemma ordinary_not_al s : ordinary s -> mem s al_reserved = false.
Proof.
  intros (H1 & _ & H3). apply mem_false. intros H. simpl in H. repeat (destruct H as [<-|H]; [try discriminate H1; try (apply H3; simpl; tauto)|]). exact H.
Qed.
Lemma ordinary_not_node s : ordinary s -> mem s node_reserved = false.
Proof.
  intros (H1 & _ & H3). apply mem_false. intros H. simpl in H. repeat (destruct H as [<-|H]; [try discriminate H1; try (apply H3; simpl; tauto)|]). exact H.
Qed.
Lemma rep_hasattr g G x : al_rep g G -> ordinary x -> al_hasattr g x = mem x (fst G).
Proof. intros [_ H] Hx. unfold al_hasattr. rewrite H. destruct (mem x (fst G)); [reflexivity|]. apply ordinary_not_al. exact Hx. Qed.
Lemma rep_getattr g G x : al_rep g G -> al_getattr g x = if mem x (fst G) then Ret (nd (snd G) x) else Raise AttributeError.
Proof. intros [_ H]. unfold al_getattr. rewrite H. destruct (mem x (fst G)); reflexivity. Qed.
Lemma nd_hasattr E x y : ordinary y -> node_hasattr (nd E x) y = mem y (outs E x).
Proof. intros H. unfold node_hasattr. cbn [nd n_attrs]. rewrite ordinary_not_node by exact H. apply orb_false_r. Qed.

Lemma fold_new (l : list string) : forall d x, sdget (fold_left (fun d v => sdset d v (mknode [] [])) l d) x = if mem x l then Some (mknode [] []) else sdget d x.
Proof.
  induction l as [|a l IH]; intros d x; [reflexivity|]. cbn [fold_left]. rewrite IH, sget_set. unfold mem. simpl. fold (mem x l).
  destruct (String.eqb x a), (mem x l); reflexivity.
Qed.
Lemma al_new_rep names : al_rep (al_new names) (names, []).
Proof.
  constructor; [reflexivity|]. intros x. unfold al_new. simpl. rewrite fold_new. unfold nd, outs. simpl. destruct (mem x names); reflexivity.
Qed.

Lemma rep_neighbors g G x : al_rep g G -> dg_ok G -> In x (fst G) -> al_neighbors g x = Ret (outs (snd G) x).
Proof.
  intros HR HG Hx. unfold al_neighbors. rewrite (rep_getattr g G x HR). apply mem_true in Hx as Hm. rewrite Hm. cbn [bind nd n_adjacent].
  assert (A : forall l acc, (forall y, In y l -> In y (fst G)) -> forM l (fun name acc => al_getattr g name;;; Ret (acc ++ [name])) acc = Ret (acc ++ l)).
  { induction l as [|y l IH]; intros acc Hl; [cbn; rewrite app_nil_r; reflexivity|]. cbn [forM]. rewrite (rep_getattr g G y HR).
    assert (Hy : mem y (fst G) = true) by (apply mem_true, Hl; left; reflexivity). rewrite Hy. cbn [bind]. rewrite IH by (intros z Hz; apply Hl; right; exact Hz).
    rewrite <- app_assoc. reflexivity. }
  rewrite A; [reflexivity|]. intros y Hy. apply outs_In in Hy. apply (ok_in _ HG) in Hy. tauto.
Qed.
Lemma rep_neighbors_none g G x : al_rep g G -> ~ In x (fst G) -> al_neighbors g x = Raise AttributeError.
Proof. intros HR Hx. unfold al_neighbors. rewrite (rep_getattr g G x HR). apply mem_false in Hx. rewrite Hx. reflexivity. Qed.

Lemma filter_mem x n V : mem x (filter (fun y => negb (String.eqb n y)) V) = mem x V && negb (String.eqb n x).
Proof.
  destruct (mem_spec x (filter (fun y => negb (String.eqb n y)) V)) as [H|H]; rewrite filter_In in H.
  - destruct H as [H ->]. apply mem_true in H. rewrite H. reflexivity.
  - destruct (mem_spec x V), (negb (String.eqb n x)); simpl; try reflexivity. exfalso. apply H. split; auto.
Qed.
Lemma mem_app x l1 l2 : mem x (l1 ++ l2) = mem x l1 || mem x l2.
Proof. apply existsb_app. Qed.
Lemma mem_one x y : mem x [y] = String.eqb x y.
Proof. unfold mem. simpl. apply orb_false_r. Qed.

Lemma step_add_vertex g G n : al_rep g G -> dg_ok G -> ordinary n -> al_rep (al_add_vertex g n) (dg_step G (GAddV n)).
Proof.
  intros HR HG Hn. unfold al_add_vertex. rewrite (rep_hasattr g G n HR Hn). destruct G as [V E]. simpl in *. destruct HR as [H1 H2]. simpl in *.
  destruct (mem_spec n V) as [Hm|Hm]; cbn [negb]; [constructor; assumption|]. constructor; cbn [al_vertices al_nodes fst snd]; [congruence|].
  intros x. rewrite sget_set, H2, mem_app, mem_one. destruct (SE x n) as [->|].
  - rewrite orb_true_r. f_equal. unfold nd. replace (outs E n) with (@nil string); [reflexivity|].
    destruct (outs E n) as [|y l] eqn:Eo; [reflexivity|]. exfalso. apply Hm. apply (ok_in _ HG n y). unfold is_edge, dg_edges. simpl. apply outs_In. rewrite Eo. left. reflexivity.
  - rewrite orb_false_r. reflexivity.
Qed.

Lemma step_remove_vertex g G n : al_rep g G -> dg_ok G -> ordinary n -> In n (fst G) ->
  exists g', al_remove_vertex g n = Ret g' /\ al_rep g' (dg_step G (GRemV n)) /\ al_weights g' = al_weights g.
Proof.
  intros HR HG Hn Hin. unfold al_remove_vertex. destruct G as [V E]. simpl in *. destruct HR as [H1 H2]. simpl in *. rewrite H2.
  apply mem_true in Hin as Hm. rewrite Hm. rewrite H1. rewrite py_remove_ok by (try apply (ok_v _ HG); exact Hin). cbn [bind].
  set (V' := filter (fun y => negb (String.eqb n y)) V). set (E' := filter (fun e => negb (String.eqb n (fst (fst e)) || String.eqb n (snd (fst e)))) E).
  assert (HV' : forall x, In x V' -> In x V /\ x <> n).
  { intros x Hx. apply filter_In in Hx as [Hx Hx2]. split; [exact Hx|]. intros ->. rewrite String.eqb_refl in Hx2. discriminate. }
  assert (NV : NoDup V') by (apply NoDup_filter, (ok_v _ HG)).
  assert (W := wp_forM string al V' (fun nd0 g0 =>
      node_obj <- al_getattr g0 nd0 ;;
      if node_hasattr node_obj n then
        node_obj <- node_delattr node_obj n ;;
        adj <- py_remove (n_adjacent node_obj) n ;;
        Ret (al_setnode g0 nd0 (mknode (n_attrs node_obj) adj))
      else Ret g0)
    (fun pre g0 => al_vertices g0 = V' /\ al_weights g0 = al_weights g /\
       forall x, sdget (al_nodes g0) x = if mem x V' then Some (nd (if mem x pre then E' else E) x) else None)).
  destruct (proj1 (wp_ex _ _ _) (W ltac:(
    intros pre b post g0 EQ (I1 & I2 & I3); unfold al_getattr; rewrite (I3 b);
    assert (Hb : In b V') by (rewrite EQ; apply in_or_app; right; left; reflexivity);
    assert (Hbm : mem b V' = true) by (apply mem_true; exact Hb);
    assert (Hbp : mem b pre = false) by (apply mem_false; intros X; rewrite EQ in NV; apply NoDup_remove_2 in NV; apply NV; apply in_or_app; left; exact X);
    rewrite Hbm, Hbp; cbn [bind];
    destruct (HV' b Hb) as [_ Hbn];
    assert (OR : outs E' b = filter (fun y => negb (String.eqb n y)) (outs E b)) by (apply outs_rem_vertex; exact Hbn);
    rewrite nd_hasattr by exact Hn;
    destruct (mem_spec n (outs E b)) as [Hnb|Hnb];
    [ unfold node_delattr; cbn [nd n_attrs n_adjacent]; apply mem_true in Hnb as Hnb'; rewrite Hnb'; cbn [bind n_attrs n_adjacent];
      rewrite py_remove_ok by (try (apply outs_nodup; apply (ok_e _ HG)); exact Hnb); cbn [bind]; apply wp_ret;
      split; [exact I1|]; split; [exact I2|]; intros x; cbn [al_setnode al_nodes]; rewrite sget_set; rewrite mem_app, mem_one;
      destruct (SE x b) as [->|Hxb]; [rewrite Hbm, orb_true_r; f_equal; unfold nd; rewrite OR; reflexivity|rewrite orb_false_r; apply I3]
    | apply wp_ret; split; [exact I1|]; split; [exact I2|]; intros x; rewrite I3, mem_app, mem_one; destruct (SE x b) as [->|Hxb]; [|rewrite orb_false_r; reflexivity];
      rewrite Hbm, orb_true_r, Hbp; f_equal; unfold nd; rewrite OR; rewrite filter_id; [reflexivity|];
      intros y Hy; destruct (SE n y) as [->|]; [contradiction|reflexivity] ])
    (mkal V' (dpop (al_nodes g) n) (al_weights g)) ltac:(
      split; [reflexivity|]; split; [reflexivity|]; intros x; cbn [al_nodes]; rewrite sget_pop, H2; unfold V'; rewrite filter_mem; rewrite (seqb_sym n x);
      destruct (SE x n); [rewrite andb_false_r; reflexivity|rewrite andb_true_r; reflexivity]))) as (g' & Eg & I1 & I2 & I3).
  exists g'. split; [exact Eg|]. split; [|exact I2]. constructor; simpl; [exact I1|]. intros x. fold V' E'. rewrite I3. destruct (mem x V'); reflexivity.
Qed.

Lemma step_add_edge g G u v c : al_rep g G -> dg_ok G -> ordinary u -> ordinary v -> In u (fst G) -> In v (fst G) ->
  exists g', al_add_edge g u v c = Ret g' /\ al_rep g' (dg_step G (GAddE u v c)) /\
    al_weights g' = match c with Some z => sdset (al_weights g) (ekey u v) (u, v, z) | None => al_weights g end.
Proof.
  intros HR HG Hu Hv Hui Hvi. unfold al_add_edge. rewrite !(rep_hasattr g G) by assumption. rewrite !(rep_getattr g G) by assumption.
  apply mem_true in Hui, Hvi. rewrite Hui, Hvi. cbn [negb bind]. unfold add_adjacent_node. rewrite nd_hasattr by exact Hv.
  destruct G as [V E]. destruct HR as [H1 H2]. cbn [fst snd] in *. cbn [dg_step]. rewrite Hui, Hvi. cbn [andb]. rewrite existsb_edge.
  destruct (mem v (outs E u)) eqn:Hm.
  - cbn [nd n_attrs]. rewrite Hm. cbn [bind].
    assert (R : al_rep (al_setnode g u {| n_attrs := outs E u; n_adjacent := outs E u |})
      (V, map (fun e => if same_edge u v e then (u, v, match c with Some _ => c | None => snd e end) else e) E)).
    { constructor; cbn [al_setnode al_vertices al_nodes fst snd]; [exact H1|]. intros x. rewrite sget_set, H2.
      assert (OE : outs (map (fun e => if same_edge u v e then (u, v, match c with Some _ => c | None => snd e end) else e) E) x = outs E x).
      { apply outs_map. intros e _. destruct (same_edge_spec u v e); simpl; congruence. }
      unfold nd. rewrite OE. destruct (SE x u) as [->|]; [rewrite Hui; reflexivity|reflexivity]. }
    destruct R as [R1 R2]. destruct c as [z|]; eexists; (split; [reflexivity|]); (split; [constructor; assumption|reflexivity]).
  - cbn [nd n_attrs n_adjacent bind].
    assert (R : al_rep (al_setnode g u {| n_attrs := outs E u ++ [v]; n_adjacent := outs E u ++ [v] |}) (V, E ++ [(u, v, c)])).
    { constructor; cbn [al_setnode al_vertices al_nodes fst snd]; [exact H1|]. intros x. rewrite sget_set, H2.
      assert (O1 : outs [(u, v, c)] x = if String.eqb x u then [v] else []) by (unfold outs; simpl; destruct (String.eqb x u); reflexivity).
      unfold nd. rewrite outs_app, O1. clear O1. destruct (SE x u) as [->|]; [rewrite Hui; reflexivity|]. rewrite app_nil_r. reflexivity. }
    destruct R as [R1 R2]. destruct c as [z|]; (eexists; split; [reflexivity|]); (split; [constructor; assumption|reflexivity]).
Qed.

Lemma step_remove_edge g G u v : al_rep g G -> dg_ok G -> ordinary v -> In u (fst G) -> In v (fst G) -> is_edge G u v ->
  exists g', al_remove_edge g u v = Ret g' /\ al_rep g' (dg_step G (GRemE u v)) /\ al_weights g' = dpop (al_weights g) (ekey u v).
Proof.
  intros HR HG Hv Hui Hvi HE. unfold al_remove_edge. rewrite !(rep_getattr g G) by assumption.
  apply mem_true in Hui, Hvi. rewrite Hui, Hvi. cbn [bind]. unfold remove_adjacent_node. rewrite nd_hasattr by exact Hv.
  destruct G as [V E]. destruct HR as [H1 H2]. cbn [fst snd] in *. unfold is_edge, dg_edges in HE. simpl in HE. apply outs_In in HE as HO. apply mem_true in HO as HM. rewrite HM. cbn [negb].
  cbn [nd n_attrs n_adjacent]. rewrite py_remove_ok by (try (apply outs_nodup; apply (ok_e _ HG)); exact HO). cbn [bind]. unfold node_delattr. cbn [n_attrs n_adjacent]. rewrite HM. cbn [bind].
  eexists. split; [reflexivity|]. split; [|reflexivity]. constructor; cbn [al_setnode al_vertices al_nodes fst snd dg_step]; [exact H1|].
  intros x. rewrite sget_set, H2. unfold nd. rewrite outs_rem_edge. destruct (SE x u) as [->|]; [rewrite Hui; reflexivity|reflexivity].
Qed.
Lemma step_remove_edge_none g G u v : al_rep g G -> ordinary v -> In u (fst G) -> In v (fst G) -> ~ is_edge G u v -> al_remove_edge g u v = Raise ValueError.
Proof.
  intros HR Hv Hui Hvi HE. unfold al_remove_edge. rewrite !(rep_getattr g G) by assumption.
  apply mem_true in Hui, Hvi. rewrite Hui, Hvi. cbn [bind]. unfold remove_adjacent_node. rewrite nd_hasattr by exact Hv.
  assert (HM : mem v (outs (snd G) u) = false). { apply mem_false. rewrite outs_In. exact HE. } rewrite HM. reflexivity.
Qed.

(** calls on names outside the graph raise and change nothing *)
Lemma dg_nochange_remE G u v : dg_ok G -> ~ is_edge G u v -> dg_step G (GRemE u v) = G.
Proof.
  destruct G as [V E]. intros HG H. simpl. f_equal. unfold is_edge, dg_edges in H. simpl in H. clear HG.
  induction E as [|e E IH]; [reflexivity|]. simpl in *. destruct (same_edge_spec u v e) as [He|He]; [exfalso; apply H; left; exact He|]. simpl. f_equal. apply IH. tauto.
Qed.
Lemma dg_nochange_remV G n : dg_ok G -> ~ In n (fst G) -> dg_step G (GRemV n) = G.
Proof.
  destruct G as [V E]. intros HG H. simpl in *. f_equal.
  - apply filter_id. intros x Hx. destruct (SE n x) as [->|]; [contradiction|reflexivity].
  - assert (HI := ok_in _ HG). unfold is_edge, dg_edges in HI. simpl in HI. clear HG. induction E as [|[[a b] c] E IH]; [reflexivity|]. simpl in *.
    destruct (HI a b (or_introl eq_refl)) as [Ha Hb]. destruct (SE n a) as [->|]; [contradiction|]. destruct (SE n b) as [->|]; [contradiction|]. simpl. f_equal. apply IH.
    intros u v X. apply HI. right. exact X.
Qed.
Lemma remV_absent g G n : al_rep g G -> ~ In n (fst G) -> al_remove_vertex g n = Raise AttributeError.
Proof. intros [_ H] Hn. unfold al_remove_vertex. rewrite H. apply mem_false in Hn. rewrite Hn. reflexivity. Qed.
Lemma addE_absent g G u v c : al_rep g G -> ordinary u -> ordinary v -> ~ (In u (fst G) /\ In v (fst G)) -> al_add_edge g u v c = Raise ValueError.
Proof.
  intros HR Hu Hv H. unfold al_add_edge. rewrite !(rep_hasattr g G) by assumption. destruct (mem_spec u (fst G)), (mem_spec v (fst G)); simpl; auto. tauto.
Qed.
Lemma remE_absent g G u v : al_rep g G -> ~ (In u (fst G) /\ In v (fst G)) -> al_remove_edge g u v = Raise AttributeError.
Proof.
  intros HR H. unfold al_remove_edge. rewrite !(rep_getattr g G) by assumption. destruct (mem_spec u (fst G)), (mem_spec v (fst G)); simpl; auto. tauto.
Qed.
Lemma is_edge_dec G u v : {is_edge G u v} + {~ is_edge G u v}.
Proof. destruct (mem v (outs (snd G) u)) eqn:E; [left|right]; [apply mem_true in E|apply mem_false in E]; unfold is_edge, dg_edges; rewrite outs_In in E; exact E. Qed.
Lemma in_dec_s (x : string) l : {In x l} + {~ In x l}.
Proof. apply in_dec, SD. Qed.

(** one call *)
Lemma al_step_ok g G o : al_rep g G -> dg_ok G -> Forall ordinary (op_names o) ->
  exists g', settle g (al_call g o) = Ret g' /\ al_rep g' (dg_step G o).
Proof.
  intros HR HG HO. destruct o as [n|n|u v c|u v]; cbn [op_names al_call] in *.
  - inversion HO; subst. exists (al_add_vertex g n). split; [reflexivity|]. apply step_add_vertex; assumption.
  - inversion HO; subst. destruct (in_dec_s n (fst G)) as [Hn|Hn].
    + destruct (step_remove_vertex g G n HR HG H1 Hn) as (g' & E & R & _). exists g'. rewrite E. split; [reflexivity|exact R].
    + exists g. rewrite (remV_absent g G n HR Hn). split; [reflexivity|]. rewrite dg_nochange_remV by assumption. exact HR.
  - inversion HO as [|a1 a2 Hu HO2]; subst. inversion HO2 as [|a1 a2 Hv _]; subst.
    destruct (in_dec_s u (fst G)) as [Hui|Hui], (in_dec_s v (fst G)) as [Hvi|Hvi].
    1: { destruct (step_add_edge g G u v c HR HG Hu Hv Hui Hvi) as (g' & E & R & _). exists g'. rewrite E. split; [reflexivity|exact R]. }
    all: exists g; rewrite (addE_absent g G u v c HR Hu Hv) by tauto; (split; [reflexivity|]); destruct G as [V E]; simpl in *;
      repeat match goal with H : ~ In ?x ?l |- _ => apply mem_false in H; rewrite H end; rewrite ?andb_false_r; exact HR.
  - inversion HO as [|a1 a2 Hu HO2]; subst. inversion HO2 as [|a1 a2 Hv _]; subst. destruct (is_edge_dec G u v) as [HE|HE].
    + destruct (ok_in _ HG u v HE) as [Hui Hvi]. destruct (step_remove_edge g G u v HR HG Hv Hui Hvi HE) as (g' & E & R & _). exists g'. rewrite E. split; [reflexivity|exact R].
    + exists g. rewrite dg_nochange_remE by assumption. split; [|exact HR].
      destruct (in_dec_s u (fst G)) as [Hui|Hui], (in_dec_s v (fst G)) as [Hvi|Hvi].
      1: rewrite (step_remove_edge_none g G u v) by assumption; reflexivity.
      all: rewrite (remE_absent g G u v HR) by tauto; reflexivity.
Qed.

Lemma dg0_ok names : NoDup names -> Forall ordinary names -> dg_ok (names, []).
Proof. intros H1 H2. constructor; simpl; [exact H1|exact H2|constructor|intros u v []]. Qed.
Lemma al_steps_ok ops : forall g G, al_rep g G -> dg_ok G -> Forall (fun o => Forall ordinary (op_names o)) ops ->
  exists g', forM ops (fun o g => settle g (al_call g o)) g = Ret g' /\ al_rep g' (fold_left dg_step ops G) /\ dg_ok (fold_left dg_step ops G).
Proof.
  induction ops as [|o ops IH]; intros g G HR HG HO; [exists g; split; [reflexivity|split; assumption]|].
  inversion HO; subst. destruct (al_step_ok g G o HR HG H1) as (g1 & E & R1). cbn [forM fold_left]. rewrite E. cbn [bind]. apply IH; [exact R1|apply dg_step_ok; assumption|assumption].
Qed.
Lemma al_run_ok names ops : NoDup names -> Forall ordinary names -> Forall (fun o => Forall ordinary (op_names o)) ops ->
  exists g, al_run names ops = Ret g /\ al_rep g (dg_run names ops) /\ dg_ok (dg_run names ops).
Proof. intros H1 H2 H3. apply al_steps_ok; [apply al_new_rep|apply dg0_ok; assumption|exact H3]. Qed.

Lemma al_rep_represents g G : al_rep g G -> dg_ok G -> represents (al_view g) G.
Proof.
  intros HR HG. unfold represents. split; [apply (rep_v _ _ HR)|]. split; [apply HG|]. split; [apply HG|]. split; [apply HG|]. split; [apply HG|].
  intros u Hu. exists (outs (snd G) u). split; [apply rep_neighbors; assumption|]. split; [apply outs_nodup, HG|]. intros v. apply outs_In.
Qed.

(** number of edges *)
Definition zsum (f : string -> Z) (V : list string) : Z := fold_right (fun v n => f v + n) 0 V.
Lemma fold_zsum f V : forall acc, fold_left (fun acc v => acc + f v) V acc = acc + zsum f V.
Proof. induction V as [|a V IH]; intros acc; simpl; [lia|]. rewrite IH. lia. Qed.
Lemma zsum_ext f h V : (forall x, In x V -> f x = h x) -> zsum f V = zsum h V.
Proof. induction V as [|a V IH]; intros H; [reflexivity|]. simpl. rewrite (H a) by (left; reflexivity). rewrite IH by (intros; apply H; right; assumption). reflexivity. Qed.
Lemma zsum_bump f h V a k : NoDup V -> In a V -> f a = h a + k -> (forall x, x <> a -> f x = h x) -> zsum f V = zsum h V + k.
Proof.
  induction V as [|x V IH]; intros HN Hi Ha He; [destruct Hi|]. inversion HN; subst. simpl. destruct Hi as [->|Hi].
  - rewrite Ha. rewrite (zsum_ext f h V); [lia|]. intros y Hy. apply He. congruence.
  - rewrite IH by assumption. rewrite (He x) by congruence. lia.
Qed.
Lemma outs_cons a b c E x : outs ((a, b, c) :: E) x = if String.eqb x a then b :: outs E x else outs E x.
Proof. unfold outs. simpl. destruct (String.eqb x a); reflexivity. Qed.
Lemma len_sum E V : NoDup V -> (forall u v, In (u, v) (map fst E) -> In u V) -> zsum (fun v => len (outs E v)) V = len E.
Proof.
  intros HN. induction E as [|[[a b] c] E IH]; intros H.
  - clear. induction V; simpl; [reflexivity|]. rewrite IHV. reflexivity.
  - rewrite (zsum_bump _ (fun v => len (outs E v)) V a 1).
    + rewrite IH by (intros u v X; apply (H u v); right; exact X). unfold len. simpl. lia.
    + exact HN.
    + apply (H a b). left. reflexivity.
    + rewrite outs_cons, String.eqb_refl. unfold len. simpl. lia.
    + intros x Hx. rewrite outs_cons. destruct (SE x a); [contradiction|reflexivity].
Qed.
Lemma rep_num_edges g G : al_rep g G -> dg_ok G -> al_num_edges g = Ret (len (snd G)).
Proof.
  intros HR HG. unfold al_num_edges. rewrite (rep_v _ _ HR). rewrite <- (len_sum (snd G) (fst G)); [|apply HG|intros u v X; apply (ok_in _ HG u v X)].
  replace (zsum _ (fst G)) with (0 + zsum (fun v => len (outs (snd G) v)) (fst G)) by lia. rewrite <- fold_zsum. generalize 0.
  assert (A : forall V, incl V (fst G) -> forall z, forM V (fun v acc => l <- al_neighbors g v;; Ret (acc + len l)) z = Ret (fold_left (fun acc v => acc + len (outs (snd G) v)) V z)).
  { induction V as [|x V IH]; intros HI z; [reflexivity|]. cbn [forM fold_left]. rewrite (rep_neighbors g G x HR HG) by (apply HI; left; reflexivity). cbn [bind]. apply IH.
    intros y Hy. apply HI. right. exact Hy. }
  apply A. apply incl_refl.
Qed.
Lemma rep_is_adjacent g G u v : al_rep g G -> dg_ok G -> In u (fst G) -> ordinary v -> exists b, al_is_adjacent g u v = Ret b /\ (b = true <-> is_edge G u v).
Proof.
  intros HR HG Hu Hv. unfold al_is_adjacent. rewrite (rep_getattr g G u HR). apply mem_true in Hu. rewrite Hu. cbn [bind]. rewrite nd_hasattr by exact Hv.
  eexists. split; [reflexivity|]. rewrite mem_true. apply outs_In.
Qed.
Lemma rep_is_adjacent_none g G u v : al_rep g G -> ~ In u (fst G) -> al_is_adjacent g u v = Raise AttributeError.
Proof. intros HR Hu. unfold al_is_adjacent. rewrite (rep_getattr g G u HR). apply mem_false in Hu. rewrite Hu. reflexivity. Qed.

(** ** edge_weights *)
Definition wrep (W : list (string * edge)) (G : dg) : Prop :=
  NoDup (map fst W) /\ (forall k e, In (k, e) W <-> exists u v c, k = ekey u v /\ e = (u, v, c) /\ has_cost G u v c).
Lemma cost_edge G u v c : has_cost G u v c -> is_edge G u v.
Proof. intros H. apply (in_map fst) in H. exact H. Qed.
Lemma cost_ord G u v c : dg_ok G -> has_cost G u v c -> ordinary u /\ ordinary v.
Proof. intros HG H. apply cost_edge in H. apply (ok_in _ HG) in H as [Hu Hv]. assert (O := ok_ord _ HG). rewrite Forall_forall in O. split; apply O; assumption. Qed.
Lemma cost_fun G u v c c' : dg_ok G -> has_cost G u v c -> has_cost G u v c' -> c = c'.
Proof.
  intros HG. assert (N := ok_e _ HG). unfold has_cost, dg_edges in *. induction (snd G) as [|e E IH]; [intros []|]. simpl in *. inversion N; subst.
  intros [He|He] [He'|He']; subst.
  - congruence.
  - exfalso. apply H1. apply (in_map fst) in He'. exact He'.
  - exfalso. apply H1. apply (in_map fst) in He. exact He.
  - apply IH; assumption.
Qed.
Lemma wrep_get W G u v : wrep W G -> dg_ok G -> no_us u = true -> match sdget W (ekey u v) with Some e => exists c, e = (u, v, c) /\ has_cost G u v c | None => forall c, ~ has_cost G u v c end.
Proof.
  intros [HN HW] HG Hu. destruct (sdget W (ekey u v)) as [e|] eqn:E.
  - apply sget_In in E. apply HW in E as (u' & v' & c & Ek & -> & Hc). destruct (cost_ord _ _ _ _ HG Hc) as [O1 _].
    apply ekey_inj in Ek as [-> ->]; [|exact Hu|apply O1]. exists c. split; [reflexivity|exact Hc].
  - intros c Hc. apply sget_none in E. apply E. apply in_map_iff. exists (ekey u v, (u, v, c)). split; [reflexivity|]. apply HW. exists u, v, c. auto.
Qed.

Lemma cost_addE V E u v c a b z : NoDup (map fst E) -> mem u V = true -> mem v V = true ->
  (has_cost (dg_step (V, E) (GAddE u v c)) a b z <->
   match c with Some w => (a = u /\ b = v /\ z = w) \/ (~ (a = u /\ b = v) /\ has_cost (V, E) a b z) | None => has_cost (V, E) a b z end).
Proof.
  intros HN Hu Hv. cbn [dg_step]. rewrite Hu, Hv. cbn [andb]. rewrite existsb_edge. unfold has_cost. destruct (mem_spec v (outs E u)) as [He|He]; rewrite outs_In in He; cbn [snd].
  - rewrite in_map_iff. destruct c as [w|].
    + split.
      * intros (e & Ee & HI). destruct (same_edge_spec u v e) as [Hf|Hf]; [left; injection Ee; auto|]. right. subst e. split; [|exact HI]. intros [-> ->]. apply Hf. reflexivity.
      * intros [(-> & -> & ->)|[Hn HI]].
        -- apply in_map_iff in He as (e & Ef & HI). exists e. split; [|exact HI]. destruct (same_edge_spec u v e); [reflexivity|contradiction].
        -- exists (a, b, Some z). split; [|exact HI]. destruct (same_edge_spec u v (a, b, Some z)) as [Hf|]; [|reflexivity]. exfalso. apply Hn. injection Hf; auto.
    + split.
      * intros (e & Ee & HI). destruct (same_edge_spec u v e) as [Hf|Hf]; [|subst e; exact HI]. destruct e as [[x y] o]. simpl in *. injection Hf as -> ->. rewrite <- Ee. exact HI.
      * intros HI. exists (a, b, Some z). split; [|exact HI]. destruct (same_edge_spec u v (a, b, Some z)) as [Hf|]; [|reflexivity]. simpl in *. injection Hf as -> ->. reflexivity.
  - rewrite in_app_iff. simpl. destruct c as [w|].
    + split.
      * intros [HI|[[= -> -> ->]|[]]]; [|left; auto]. right. split; [|exact HI]. intros [-> ->]. apply He. apply (in_map fst) in HI. exact HI.
      * intros [(-> & -> & ->)|[_ HI]]; [right; left; reflexivity|left; exact HI].
    + split; [|left; assumption]. intros [HI|[X|[]]]; [exact HI|discriminate X].
Qed.
Lemma cost_remE V E u v a b z : has_cost (dg_step (V, E) (GRemE u v)) a b z <-> ~ (a = u /\ b = v) /\ has_cost (V, E) a b z.
Proof.
  unfold has_cost. simpl. rewrite filter_In. destruct (same_edge_spec u v (a, b, Some z)) as [Hf|Hf]; simpl in *; split.
  - intros [_ X]. discriminate.
  - intros [X _]. exfalso. apply X. injection Hf; auto.
  - intros [X _]. split; [|exact X]. intros [-> ->]. apply Hf. reflexivity.
  - intros [_ X]. split; [exact X|reflexivity].
Qed.

Lemma wrep_addE W G u v c : wrep W G -> dg_ok G -> In u (fst G) -> In v (fst G) ->
  wrep (match c with Some z => sdset W (ekey u v) (u, v, z) | None => W end) (dg_step G (GAddE u v c)).
Proof.
  intros [HN HW] HG Hu Hv. destruct G as [V E]. simpl in Hu, Hv. assert (O := ok_ord _ HG). rewrite Forall_forall in O. assert (Ou := O u Hu). clear O.
  apply mem_true in Hu as Hu', Hv as Hv'. assert (NE := ok_e _ HG). unfold dg_edges in NE. simpl in NE. split.
  - destruct c; [apply sset_nodup|]; exact HN.
  - intros k e. destruct c as [w|].
    + rewrite sset_In by exact HN. split.
      * intros [[-> ->]|[Hk HI]].
        -- exists u, v, w. split; [reflexivity|]. split; [reflexivity|]. apply cost_addE; auto.
        -- apply HW in HI as (a & b & z & -> & -> & Hc). exists a, b, z. split; [reflexivity|]. split; [reflexivity|]. apply cost_addE; auto. right. split; [|exact Hc].
           intros [-> ->]. contradiction.
      * intros (a & b & z & -> & -> & Hc). apply cost_addE in Hc; auto. destruct Hc as [(-> & -> & ->)|[Hn Hc]]; [left; auto|]. right. split.
        -- intros X. apply ekey_inj in X; [auto| |apply Ou]. apply (cost_ord _ _ _ _ HG Hc).
        -- apply HW. exists a, b, z. auto.
    + rewrite HW. split; intros (a & b & z & A & B & Hc); exists a, b, z; (split; [exact A|]); (split; [exact B|]); apply (cost_addE V E u v None) in Hc || apply (cost_addE V E u v None); auto.
Qed.
Lemma wrep_remE W G u v : wrep W G -> dg_ok G -> no_us u = true -> wrep (dpop W (ekey u v)) (dg_step G (GRemE u v)).
Proof.
  intros [HN HW] HG Hu. destruct G as [V E]. split; [apply pop_nodup; exact HN|]. intros k e. rewrite pop_In, HW. split.
  - intros [Hk (a & b & z & -> & -> & Hc)]. exists a, b, z. split; [reflexivity|]. split; [reflexivity|]. apply cost_remE. split; [|exact Hc]. intros [-> ->]. contradiction.
  - intros (a & b & z & -> & -> & Hc). apply cost_remE in Hc as [Hn Hc]. split; [|exists a, b, z; auto]. intros X. apply ekey_inj in X; [auto| |exact Hu]. apply (cost_ord _ _ _ _ HG Hc).
Qed.

Lemma al_wstep_ok g G o : al_rep g G -> wrep (al_weights g) G -> dg_ok G -> Forall ordinary (op_names o) -> is_remove_vertex o = false ->
  exists g', settle g (al_call g o) = Ret g' /\ al_rep g' (dg_step G o) /\ wrep (al_weights g') (dg_step G o).
Proof.
  intros HR HW HG HO HV. destruct (al_step_ok g G o HR HG HO) as (g' & Eg & R). exists g'. split; [exact Eg|]. split; [exact R|].
  destruct o as [n|n|u v c|u v]; cbn [op_names al_call] in *; [|discriminate HV|..].
  - injection Eg as <-. unfold al_add_vertex. destruct G as [V E]. destruct (negb (al_hasattr g n)); cbn [al_weights dg_step]; destruct (mem n V); exact HW.
  - inversion HO as [|a1 a2 Hu HO2]; subst. inversion HO2 as [|a1 a2 Hv _]; subst.
    destruct (in_dec_s u (fst G)) as [Hui|Hui], (in_dec_s v (fst G)) as [Hvi|Hvi].
    1: { destruct (step_add_edge g G u v c HR HG Hu Hv Hui Hvi) as (g1 & E & _ & EW). rewrite E in Eg. injection Eg as <-. rewrite EW. apply wrep_addE; assumption. }
    all: rewrite (addE_absent g G u v c HR Hu Hv) in Eg by tauto; injection Eg as <-; destruct G as [V E]; simpl in *;
      repeat match goal with H : ~ In ?x ?l |- _ => apply mem_false in H; rewrite H end; rewrite ?andb_false_r; exact HW.
  - inversion HO as [|a1 a2 Hu HO2]; subst. inversion HO2 as [|a1 a2 Hv _]; subst. destruct (is_edge_dec G u v) as [HE|HE].
    + destruct (ok_in _ HG u v HE) as [Hui Hvi]. destruct (step_remove_edge g G u v HR HG Hv Hui Hvi HE) as (g1 & E & _ & EW). rewrite E in Eg. injection Eg as <-. rewrite EW.
      apply wrep_remE; [exact HW|exact HG|apply Hu].
    + rewrite dg_nochange_remE by assumption. replace g' with g; [exact HW|].
      destruct (in_dec_s u (fst G)) as [Hui|Hui], (in_dec_s v (fst G)) as [Hvi|Hvi].
      1: rewrite (step_remove_edge_none g G u v) in Eg by assumption; simpl in Eg; congruence.
      all: rewrite (remE_absent g G u v HR) in Eg by tauto; simpl in Eg; congruence.
Qed.
Lemma al_wrun_ok names ops : NoDup names -> Forall ordinary names -> Forall (fun o => Forall ordinary (op_names o)) ops -> Forall (fun o => is_remove_vertex o = false) ops ->
  exists g, al_run names ops = Ret g /\ al_rep g (dg_run names ops) /\ dg_ok (dg_run names ops) /\ wrep (al_weights g) (dg_run names ops).
Proof.
  intros H1 H2 H3 H4. unfold al_run, dg_run. assert (W0 : wrep (al_weights (al_new names)) (names, [])).
  { split; [constructor|]. intros k e. simpl. split; [intros []|]. intros (u & v & c & _ & _ & []). }
  assert (R0 := al_new_rep names). assert (G0 := dg0_ok names H1 H2). revert W0 R0 G0 H3 H4. generalize (al_new names) as g. generalize (names, @nil (string * string * option Z)) as G.
  induction ops as [|o ops IH]; intros G g HW HR HG HO HV; [exists g; cbn [forM fold_left]; auto|].
  inversion HO; subst. inversion HV; subst. destruct (al_wstep_ok g G o HR HW HG) as (g1 & E & R1 & W1); [assumption..|]. cbn [forM fold_left]. rewrite E. cbn [bind].
  apply IH; [exact W1|exact R1|apply dg_step_ok; assumption|assumption|assumption].
Qed.

(** ** AdjacencyMatrix *)
Record am_rep (g : am) (G : dg) : Prop := {
  amr_v : am_vertices g = fst G;
  amr_n : forall x, (exists r, sdget (am_matrix g) x = Some r) <-> In x (fst G);
  amr_k : NoDup (map fst (am_matrix g));
  amr_r : forall x r, sdget (am_matrix g) x = Some r -> NoDup (map fst r) /\ (forall y, sdget r y = Some true <-> is_edge G x y) }.
Lemma fold_new_m (l : list string) : forall d x, sdget (fold_left (fun d v => sdset d v []) l d) x = if mem x l then Some (@nil (string * bool)) else sdget d x.
Proof.
  induction l as [|a l IH]; intros d x; [reflexivity|]. cbn [fold_left]. rewrite IH, sget_set. unfold mem. simpl. fold (mem x l).
  destruct (String.eqb x a), (mem x l); reflexivity.
Qed.
Lemma fold_new_nodup (l : list string) : forall d, NoDup (map fst d) -> NoDup (map fst (fold_left (fun d v => sdset d v (@nil (string * bool))) l d)).
Proof. induction l as [|a l IH]; intros d H; [exact H|]. cbn [fold_left]. apply IH, sset_nodup, H. Qed.
Lemma am_new_rep names : am_rep (am_new names) (names, []).
Proof.
  constructor; [reflexivity|..]; unfold am_new; simpl.
  - intros x. rewrite fold_new_m. destruct (mem_spec x names); split; intros X; auto; [eauto|destruct X; discriminate|contradiction].
  - apply fold_new_nodup. constructor.
  - intros x r H. rewrite fold_new_m in H. destruct (mem x names); [|discriminate]. injection H as <-. split; [constructor|]. intros y. simpl. split; [discriminate|intros []].
Qed.
Lemma is_edge_addE V E u v c a b : mem u V = true -> mem v V = true ->
  (is_edge (dg_step (V, E) (GAddE u v c)) a b <-> (a = u /\ b = v) \/ is_edge (V, E) a b).
Proof.
  intros Hu Hv. cbn [dg_step]. rewrite Hu, Hv. cbn [andb]. rewrite existsb_edge. unfold is_edge, dg_edges. destruct (mem_spec v (outs E u)) as [He|He]; rewrite outs_In in He; cbn [snd].
  - assert (EQ : map fst (map (fun e => if same_edge u v e then (u, v, match c with Some _ => c | None => snd e end) else e) E) = map fst E).
    { rewrite map_map. apply map_ext. intros e. destruct (same_edge_spec u v e); simpl; congruence. }
    rewrite EQ. split; [tauto|]. intros [[-> ->]|X]; assumption.
  - rewrite map_app, in_app_iff. simpl. split; [intros [X|[[= -> ->]|[]]]; tauto|]. intros [[-> ->]|X]; auto.
Qed.
Lemma is_edge_remE V E u v a b : is_edge (dg_step (V, E) (GRemE u v)) a b <-> ~ (a = u /\ b = v) /\ is_edge (V, E) a b.
Proof.
  unfold is_edge, dg_edges. simpl. rewrite !in_map_iff. split.
  - intros (e & He & HI). apply filter_In in HI as [HI Hf]. destruct (same_edge_spec u v e) as [|Hn]; [discriminate|]. split; [|exists e; auto]. intros [-> ->]. contradiction.
  - intros [Hn (e & He & HI)]. exists e. split; [exact He|]. apply filter_In. split; [exact HI|]. destruct (same_edge_spec u v e) as [Hf|]; [|reflexivity]. exfalso. apply Hn. rewrite He in Hf. injection Hf; auto.
Qed.
Lemma fst_addE G u v c : fst (dg_step G (GAddE u v c)) = fst G.
Proof. destruct G as [V E]. simpl. destruct (mem u V && mem v V); [|reflexivity]. destruct (existsb _ E); reflexivity. Qed.

Lemma am_set_rep g G G' u v b row W : am_rep g G -> sdget (am_matrix g) u = Some row -> fst G' = fst G ->
  (forall x y, is_edge G' x y <-> if String.eqb x u && String.eqb y v then b = true else is_edge G x y) ->
  am_rep (mkam (am_vertices g) (sdset (am_matrix g) u (sdset row v b)) W) G'.
Proof.
  intros HR Hrow HV HE. constructor; cbn [am_vertices am_matrix].
  - rewrite HV. apply HR.
  - intros x. rewrite sget_set, HV. destruct (SE x u) as [->|]; [|apply HR]. split; [|eauto]. intros _. apply (amr_n _ _ HR). eauto.
  - apply sset_nodup, HR.
  - intros x r. rewrite sget_set. destruct (SE x u) as [->|Hx].
    + intros [= <-]. destruct (amr_r _ _ HR u row Hrow) as [N R]. split; [apply sset_nodup; exact N|]. intros y. rewrite sget_set, HE, String.eqb_refl. cbn [andb].
      destruct (SE y v) as [->|]; [|apply R]. split; congruence.
    + intros Hr. destruct (amr_r _ _ HR x r Hr) as [N R]. split; [exact N|]. intros y. rewrite HE. destruct (SE x u); [contradiction|]. cbn [andb]. apply R.
Qed.

Lemma am_step_ok g G o : am_rep g G -> wrep (am_weights g) G -> dg_ok G -> Forall ordinary (op_names o) ->
  exists g', settle g (am_call g o) = Ret g' /\ am_rep g' (dg_step_static G o) /\ wrep (am_weights g') (dg_step_static G o) /\ dg_ok (dg_step_static G o).
Proof.
  intros HR HW HG HO. destruct o as [n|n|u v c|u v]; cbn [am_call dg_step_static op_names] in *; [exists g; auto|exists g; auto|..];
  assert (Hu : ordinary u) by (inversion HO; assumption).
  - assert (GO := dg_step_ok G (GAddE u v c) HG HO). unfold am_add_edge.
    destruct (sdget (am_matrix g) u) as [row|] eqn:Eu, (sdget (am_matrix g) v) as [row2|] eqn:Ev.
    1:{ assert (Hui : In u (fst G)) by (apply (amr_n _ _ HR); eauto). assert (Hvi : In v (fst G)) by (apply (amr_n _ _ HR); eauto).
        assert (HW' := wrep_addE _ _ u v c HW HG Hui Hvi).
        assert (R : forall W, am_rep (mkam (am_vertices g) (sdset (am_matrix g) u (sdset row v true)) W) (dg_step G (GAddE u v c))).
        { intros W. apply (am_set_rep g G _ u v true row W HR Eu); [apply fst_addE|]. intros x y. destruct G as [V E]. cbn [fst] in *. apply mem_true in Hui, Hvi. rewrite is_edge_addE by assumption.
          destruct (SE x u) as [->|]; cbn [andb]; [destruct (SE y v) as [->|]|]; tauto. }
        destruct c as [z|]; eexists; (split; [reflexivity|]); (split; [apply R|]); (split; [exact HW'|exact GO]). }
    all: exists g; cbn [settle]; (split; [reflexivity|]).
    all: assert (X : dg_step G (GAddE u v c) = G); [|rewrite X; auto].
    all: assert (HN : ~ In u (fst G) \/ ~ In v (fst G)) by (rewrite <- !(amr_n _ _ HR), ?Eu, ?Ev; (left; intros [? ?]; congruence) || (right; intros [? ?]; congruence)).
    all: destruct G as [V E]; simpl in *; destruct HN as [HN|HN]; apply mem_false in HN; rewrite HN, ?andb_false_r; reflexivity.
  - assert (GO := dg_step_ok G (GRemE u v) HG HO). unfold am_remove_edge. destruct (sdget (am_matrix g) u) as [row|] eqn:Eu.
    + eexists. split; [reflexivity|]. split; [|split; [apply wrep_remE; [exact HW|exact HG|apply Hu]|exact GO]].
      apply (am_set_rep g G _ u v false row _ HR Eu); [destruct G; reflexivity|]. intros x y. destruct G as [V E]. rewrite is_edge_remE.
      destruct (SE x u) as [->|]; cbn [andb]; [destruct (SE y v) as [->|]|]; split; try tauto; try discriminate.
    + exists g. split; [reflexivity|]. assert (HN : ~ In u (fst G)) by (rewrite <- (amr_n _ _ HR), Eu; intros [? ?]; congruence).
      rewrite dg_nochange_remE; [auto|exact HG|]. intros X. apply (ok_in _ HG) in X. tauto.
Qed.
Lemma am_run_ok names ops : NoDup names -> Forall ordinary names -> Forall (fun o => Forall ordinary (op_names o)) ops ->
  exists g, am_run names ops = Ret g /\ am_rep g (dg_run_static names ops) /\ dg_ok (dg_run_static names ops) /\ wrep (am_weights g) (dg_run_static names ops).
Proof.
  intros H1 H2 H3. unfold am_run, dg_run_static. assert (W0 : wrep (am_weights (am_new names)) (names, [])).
  { split; [constructor|]. intros k e. simpl. split; [intros []|]. intros (u & v & c & _ & _ & []). }
  assert (R0 := am_new_rep names). assert (G0 := dg0_ok names H1 H2). revert W0 R0 G0 H3. generalize (am_new names) as g. generalize (names, @nil (string * string * option Z)) as G.
  induction ops as [|o ops IH]; intros G g HW HR HG HO; [exists g; cbn [forM fold_left]; auto|].
  inversion HO; subst. destruct (am_step_ok g G o HR HW HG) as (g1 & E & R1 & W1 & O1); [assumption|]. cbn [forM fold_left]. rewrite E. cbn [bind].
  apply IH; assumption.
Qed.
Lemma am_rep_neighbors g G x : am_rep g G -> dg_ok G -> exists l, am_neighbors g x = Ret l /\ NoDup l /\ (forall v, In v l <-> is_edge G x v).
Proof.
  intros HR HG. unfold am_neighbors, am_row.
  destruct (sdget (am_matrix g) x) as [r|] eqn:Ex.
  2:{ exists []. split; [reflexivity|]. split; [constructor|]. intros v. split; [intros []|]. intros X. apply (ok_in _ HG) in X as [X _]. apply (amr_n _ _ HR) in X as [r X]. congruence. }
  destruct (amr_r _ _ HR x r Ex) as [N R]. set (l := map fst (filter (fun e : string * bool => snd e) r)).
  assert (L : forall v, In v l <-> is_edge G x v).
  { intros v. rewrite <- R. unfold l. rewrite in_map_iff. split.
    - intros ([a b] & Ha & HI). apply filter_In in HI as [HI Hb]. simpl in *. subst. apply In_sget; assumption.
    - intros X. apply sget_In in X. exists (v, true). split; [reflexivity|]. apply filter_In. auto. }
  exists l. split; [|split; [|exact L]].
  - assert (A : forall r acc, (forall e, In e r -> snd e = true -> In (fst e) (am_vertices g)) ->
      forM r (fun '(nd, presence) acc => if presence : bool then if mem nd (am_vertices g) then Ret (acc ++ [nd]) else Raise AttributeError else Ret acc) acc = Ret (acc ++ map fst (filter (fun e : string * bool => snd e) r))).
    { clear. induction r as [|[a b] r IH]; intros acc H; [cbn; rewrite app_nil_r; reflexivity|]. cbn [forM filter snd]. assert (IH' := fun acc => IH acc (fun e He => H e (or_intror He))). destruct b.
      - assert (Ha : mem a (am_vertices g) = true) by (apply mem_true, (H (a, true)); [left; reflexivity|reflexivity]). rewrite Ha. cbn [bind map fst]. rewrite IH'. rewrite <- app_assoc. reflexivity.
      - cbn [bind]. apply IH'. }
    rewrite A; [reflexivity|]. intros [a b] He Hb. simpl in *. subst b. rewrite (amr_v _ _ HR). apply (ok_in _ HG x a). apply R. apply In_sget; assumption.
  - unfold l. clear - N. induction r as [|[a b] r IH]; simpl in *; [constructor|]. inversion N; subst. destruct b; simpl; [|auto]. constructor; [|auto].
    intros X. apply H1. apply in_map_iff in X as (e & He & HI). apply filter_In in HI as [HI _]. apply in_map_iff. exists e. auto.
Qed.
Lemma am_rep_adjacent g G u v : am_rep g G -> dg_ok G -> (am_is_adjacent g u v = true <-> is_edge G u v).
Proof.
  intros HR HG. unfold am_is_adjacent, am_row. destruct (sdget (am_matrix g) u) as [r|] eqn:Eu.
  - destruct (amr_r _ _ HR u r Eu) as [_ R]. rewrite <- R. destruct (sdget r v) as [b|]; split; congruence.
  - simpl. split; [discriminate|]. intros X. apply (ok_in _ HG) in X as [X _]. apply (amr_n _ _ HR) in X as [r X]. congruence.
Qed.
Lemma am_rep_represents g G : am_rep g G -> dg_ok G -> represents (am_view g) G.
Proof.
  intros HR HG. unfold represents. split; [apply (amr_v _ _ HR)|]. split; [apply HG|]. split; [apply HG|]. split; [apply HG|]. split; [apply HG|].
  intros u Hu. apply (am_rep_neighbors g G u HR HG).
Qed.

(** num_edges of the matrix without remove_edge: every entry is True *)
Definition all_true (g : am) : Prop := forall x r y b, sdget (am_matrix g) x = Some r -> In (y, b) r -> b = true.
Lemma all_true_step g o : (forall x r, sdget (am_matrix g) x = Some r -> NoDup (map fst r)) -> all_true g -> is_remove_edge o = false -> forall g', settle g (am_call g o) = Ret g' -> all_true g'.
Proof.
  intros HN H HO g' E. destruct o as [n|n|u v c|u v]; cbn [am_call] in E; [injection E as <-; exact H|injection E as <-; exact H| |discriminate HO].
  unfold am_add_edge in E. destruct (sdget (am_matrix g) u) as [row|] eqn:Eu; [|injection E as <-; exact H]. destruct (sdget (am_matrix g) v) as [rv|]; [|injection E as <-; exact H].
  assert (X : am_matrix g' = sdset (am_matrix g) u (sdset row v true)) by (destruct c; injection E as <-; reflexivity). intros x r y b. rewrite X, sget_set. destruct (SE x u) as [->|].
  - intros [= <-] HI. apply sset_In in HI; [|apply (HN u row Eu)]. destruct HI as [[_ ->]|[_ HI]]; [reflexivity|]. apply (H u row y b Eu HI).
  - apply H.
Qed.
Lemma am_true_run names ops : NoDup names -> Forall ordinary names -> Forall (fun o => Forall ordinary (op_names o)) ops -> Forall (fun o => is_remove_edge o = false) ops ->
  forall g, am_run names ops = Ret g -> all_true g.
Proof.
  intros H1 H2 H3 H4. assert (W0 : wrep (am_weights (am_new names)) (names, [])).
  { split; [constructor|]. intros k e. simpl. split; [intros []|]. intros (u & v & c & _ & _ & []). }
  assert (R0 := am_new_rep names). assert (G0 := dg0_ok names H1 H2). unfold am_run.
  assert (T0 : all_true (am_new names)). { intros x r y b. cbn [am_new am_matrix]. rewrite fold_new_m. destruct (mem x names); [intros [= <-] []|discriminate]. }
  revert W0 R0 G0 T0 H3 H4. generalize (am_new names) as g0. generalize (names, @nil (string * string * option Z)) as G.
  induction ops as [|o ops IH]; intros G g HW HR HG HT HO HV g' E; [injection E as <-; exact HT|].
  inversion HO; subst. inversion HV; subst. destruct (am_step_ok g G o HR HW HG) as (g1 & E1 & R1 & W1 & O1); [assumption|]. cbn [forM] in E. rewrite E1 in E. cbn [bind] in E.
  apply (IH _ g1 W1 R1 O1); [|assumption..]. apply (all_true_step g o); try assumption. intros x r Ex. apply (amr_r _ _ HR x r Ex).
Qed.
Lemma am_num_edges_true g G : am_rep g G -> dg_ok G -> all_true g -> am_num_edges g = len (snd G).
Proof.
  intros HR HG HT. unfold am_num_edges.
  assert (A : forall l acc, NoDup (map fst l) -> (forall x r, In (x, r) l -> len r = len (outs (snd G) x)) -> fold_left (fun acc (r : string * list (string * bool)) => acc + len (snd r)) l acc = acc + zsum (fun x => len (outs (snd G) x)) (map fst l)).
  { induction l as [|[x r] l IH]; intros acc N H; cbn [fold_left map fst snd]; [cbn; lia|]. inversion N; subst. rewrite IH; [|assumption|intros y r' Hy; apply H; right; exact Hy].
    rewrite (H x r (or_introl eq_refl)). cbn [zsum fold_right]. fold (zsum (fun x => len (outs (snd G) x)) (map fst l)). lia. }
  rewrite A.
  - rewrite len_sum; [lia|apply (amr_k _ _ HR)|]. intros u v HE. destruct (ok_in _ HG u v HE) as [Hu _]. apply (amr_n _ _ HR) in Hu as [r Hr]. eapply sget_key. exact Hr.
  - apply (amr_k _ _ HR).
  - intros x r Hx. apply In_sget in Hx; [|apply (amr_k _ _ HR)]. destruct (amr_r _ _ HR x r Hx) as [N R].
    assert (P : Permutation (map fst r) (outs (snd G) x)).
    { apply NoDup_Permutation; [exact N|apply outs_nodup, HG|]. intros v. rewrite outs_In. change (In (x, v) (map fst (snd G))) with (is_edge G x v). rewrite <- R. split.
      - intros Hv. destruct (sget_some r v Hv) as [b Eb]. assert (b = true) by (apply (HT x r v b Hx); apply sget_In; exact Eb). subst b. exact Eb.
      - intros E. eapply sget_key. exact E. }
    apply Permutation_length in P. rewrite map_length in P. unfold len. lia.
Qed.
