(** The refinement proof of C71 for all vertex names but those of attributes (C89): underscores and the empty name included. *)
From Coq Require Import Strings.String Strings.Ascii.
From Verif Require Import Base DsfModel GraphModel GraphSpec GraphDict GraphProofs NameSpec.
Import List.
Record dg_ok (G : dg) : Prop := {
  ok_v : NoDup (fst G); ok_ord : Forall usable (fst G); ok_e : NoDup (dg_edges G);
  ok_in : forall u v, is_edge G u v -> In u (fst G) /\ In v (fst G) }.

Lemma in_edges_filter f E (u v : string) : In (u, v) (map fst (filter f E)) -> In (u, v) (map fst (A := string * string * option Z) E).
Proof. rewrite !in_map_iff. intros (e & He & HI). apply filter_In in HI as [HI _]. exists e. split; assumption. Qed.

Lemma dg_step_ok G o : dg_ok G -> Forall usable (op_names o) -> dg_ok (dg_step G o).
Proof.
  destruct G as [V E]. intros [H1 H2 H3 H4] HO. unfold dg_edges, is_edge in *. simpl in *. destruct o as [n|n|u v c|u v]; simpl in *.
  - destruct (mem_spec n V) as [Hn|Hn]; [constructor; assumption|]. constructor; simpl; [|..|exact H3|].
    + apply (Permutation_NoDup (l := n :: V)); [apply Permutation_cons_append|constructor; assumption].
    + apply Forall_app. split; [exact H2|exact HO].
    + intros u v H. destruct (H4 u v H) as [A B]. split; apply in_or_app; left; assumption.
  - constructor; simpl.
    + apply NoDup_filter. exact H1.
    + apply Forall_forall. intros x Hx. apply filter_In in Hx as [Hx _]. rewrite Forall_forall in H2. auto.
    + apply map_fst_filter. exact H3.
    + intros u v H. assert (HE := in_edges_filter _ _ _ _ H). destruct (H4 u v HE) as [A B].
      unfold is_edge, dg_edges in H. simpl in H. apply in_map_iff in H as (e & He & HI). apply filter_In in HI as [_ HI]. rewrite He in HI. simpl in HI.
      apply negb_true_iff, orb_false_iff in HI as [X Y]. split; apply filter_In; split; auto; [rewrite X|rewrite Y]; reflexivity.
  - destruct (mem_spec u V) as [Hu|]; simpl; [|constructor; assumption]. destruct (mem_spec v V) as [Hv|]; simpl; [|constructor; assumption].
    rewrite existsb_edge. destruct (mem_spec v (outs E u)) as [He|He].
    + assert (EQ : map fst (map (fun e => if same_edge u v e then (u, v, match c with Some _ => c | None => snd e end) else e) E) = map fst E).
      { rewrite map_map. apply map_ext. intros e. destruct (same_edge_spec u v e); simpl; congruence. }
      constructor; unfold dg_edges, is_edge; simpl; [exact H1|exact H2|rewrite EQ; exact H3|]. intros a b. unfold dg_edges. simpl. rewrite EQ. apply H4.
    + constructor; unfold dg_edges, is_edge; simpl; [exact H1|exact H2| |].
      * rewrite map_app. apply (Permutation_NoDup (l := (u, v) :: map fst E)); [apply Permutation_cons_append|]. constructor; [|exact H3].
        intros H. apply He. apply outs_In. exact H.
      * intros a b. unfold dg_edges. simpl. rewrite map_app. intros H. apply in_app_or in H as [H|[[= <- <-]|[]]]; [apply H4; exact H|tauto].
  - constructor; unfold dg_edges, is_edge; simpl; [exact H1|exact H2|apply map_fst_filter; exact H3|].
    intros a b H. apply H4. eapply in_edges_filter. exact H.
Qed.

(** ** AdjacencyList *)
Definition nd (E : list (string * string * option Z)) (x : string) : node := mknode (outs E x) (outs E x).
Record al_rep (g : al) (G : dg) : Prop := {
  rep_v : al_vertices g = fst G;
  rep_n : forall x, sdget (al_nodes g) x = if mem x (fst G) then Some (nd (snd G) x) else None }.

Lemma usable_not_al s : usable s -> mem s al_reserved = false.
Proof. intros (_ & H). apply mem_false. exact H. Qed.
Lemma usable_not_node s : usable s -> mem s node_reserved = false.
Proof. intros (H & _). apply mem_false. exact H. Qed.
Lemma rep_hasattr g G x : al_rep g G -> usable x -> al_hasattr g x = mem x (fst G).
Proof. intros [_ H] Hx. unfold al_hasattr. rewrite H. destruct (mem x (fst G)); [reflexivity|]. apply usable_not_al. exact Hx. Qed.
Lemma rep_getattr g G x : al_rep g G -> al_getattr g x = if mem x (fst G) then Ret (nd (snd G) x) else Raise AttributeError.
Proof. intros [_ H]. unfold al_getattr. rewrite H. destruct (mem x (fst G)); reflexivity. Qed.
Lemma nd_hasattr E x y : usable y -> node_hasattr (nd E x) y = mem y (outs E x).
Proof. intros H. unfold node_hasattr. cbn [nd n_attrs]. rewrite usable_not_node by exact H. apply orb_false_r. Qed.

Lemma fold_new (l : list string) : forall d x, sdget (fold_left (fun d v => sdset d v (mknode [] [])) l d) x = if mem x l then Some (mknode [] []) else sdget d x.
Proof.
  induction l as [|a l IH]; intros d x; [reflexivity|]. cbn [fold_left]. rewrite IH, sget_set. unfold mem. simpl. fold (mem x l).
  destruct (String.eqb x a), (mem x l); reflexivity.
Qed.
Lemma al_new_rep names : al_rep (al_new names) (names, []).
Proof.
  constructor; [reflexivity|]. intros x. unfold al_new. simpl. rewrite fold_new. unfold nd, outs. simpl. destruct (mem x names); reflexivity.
Qed.

Lemma rep_neighbors g G x : al_rep g G -> dg_ok G -> In x (fst G) -> al_neighbors g x = Ret (outs (snd G) x).
Proof.
  intros HR HG Hx. unfold al_neighbors. rewrite (rep_getattr g G x HR). apply mem_true in Hx as Hm. rewrite Hm. cbn [bind nd n_adjacent].
  assert (A : forall l acc, (forall y, In y l -> In y (fst G)) -> forM l (fun name acc => al_getattr g name;;; Ret (acc ++ [name])) acc = Ret (acc ++ l)).
  { induction l as [|y l IH]; intros acc Hl; [cbn; rewrite app_nil_r; reflexivity|]. cbn [forM]. rewrite (rep_getattr g G y HR).
    assert (Hy : mem y (fst G) = true) by (apply mem_true, Hl; left; reflexivity). rewrite Hy. cbn [bind]. rewrite IH by (intros z Hz; apply Hl; right; exact Hz).
    rewrite <- app_assoc. reflexivity. }
  rewrite A; [reflexivity|]. intros y Hy. apply outs_In in Hy. apply (ok_in _ HG) in Hy. tauto.
Qed.
Lemma rep_neighbors_none g G x : al_rep g G -> ~ In x (fst G) -> al_neighbors g x = Raise AttributeError.
Proof. intros HR Hx. unfold al_neighbors. rewrite (rep_getattr g G x HR). apply mem_false in Hx. rewrite Hx. reflexivity. Qed.

Lemma filter_mem x n V : mem x (filter (fun y => negb (String.eqb n y)) V) = mem x V && negb (String.eqb n x).
Proof.
  destruct (mem_spec x (filter (fun y => negb (String.eqb n y)) V)) as [H|H]; rewrite filter_In in H.
  - destruct H as [H ->]. apply mem_true in H. rewrite H. reflexivity.
  - destruct (mem_spec x V), (negb (String.eqb n x)); simpl; try reflexivity. exfalso. apply H. split; auto.
Qed.
Lemma mem_app x l1 l2 : mem x (l1 ++ l2) = mem x l1 || mem x l2.
Proof. apply existsb_app. Qed.
Lemma mem_one x y : mem x [y] = String.eqb x y.
Proof. unfold mem. simpl. apply orb_false_r. Qed.

Lemma step_add_vertex g G n : al_rep g G -> dg_ok G -> usable n -> al_rep (al_add_vertex g n) (dg_step G (GAddV n)).
Proof.
  intros HR HG Hn. unfold al_add_vertex. rewrite (rep_hasattr g G n HR Hn). destruct G as [V E]. simpl in *. destruct HR as [H1 H2]. simpl in *.
  destruct (mem_spec n V) as [Hm|Hm]; cbn [negb]; [constructor; assumption|]. constructor; cbn [al_vertices al_nodes fst snd]; [congruence|].
  intros x. rewrite sget_set, H2, mem_app, mem_one. destruct (SE x n) as [->|].
  - rewrite orb_true_r. f_equal. unfold nd. replace (outs E n) with (@nil string); [reflexivity|].
    destruct (outs E n) as [|y l] eqn:Eo; [reflexivity|]. exfalso. apply Hm. apply (ok_in _ HG n y). unfold is_edge, dg_edges. simpl. apply outs_In. rewrite Eo. left. reflexivity.
  - rewrite orb_false_r. reflexivity.
Qed.

Lemma step_remove_vertex g G n : al_rep g G -> dg_ok G -> usable n -> In n (fst G) ->
  exists g', al_remove_vertex g n = Ret g' /\ al_rep g' (dg_step G (GRemV n)) /\ al_weights g' = al_weights g.
Proof.
  intros HR HG Hn Hin. unfold al_remove_vertex. destruct G as [V E]. simpl in *. destruct HR as [H1 H2]. simpl in *. rewrite H2.
  apply mem_true in Hin as Hm. rewrite Hm. rewrite H1. rewrite py_remove_ok by (try apply (ok_v _ HG); exact Hin). cbn [bind].
  set (V' := filter (fun y => negb (String.eqb n y)) V). set (E' := filter (fun e => negb (String.eqb n (fst (fst e)) || String.eqb n (snd (fst e)))) E).
  assert (HV' : forall x, In x V' -> In x V /\ x <> n).
  { intros x Hx. apply filter_In in Hx as [Hx Hx2]. split; [exact Hx|]. intros ->. rewrite String.eqb_refl in Hx2. discriminate. }
  assert (NV : NoDup V') by (apply NoDup_filter, (ok_v _ HG)).
  assert (W := wp_forM string al V' (fun nd0 g0 =>
      node_obj <- al_getattr g0 nd0 ;;
      if node_hasattr node_obj n then
        node_obj <- node_delattr node_obj n ;;
        adj <- py_remove (n_adjacent node_obj) n ;;
        Ret (al_setnode g0 nd0 (mknode (n_attrs node_obj) adj))
      else Ret g0)
    (fun pre g0 => al_vertices g0 = V' /\ al_weights g0 = al_weights g /\
       forall x, sdget (al_nodes g0) x = if mem x V' then Some (nd (if mem x pre then E' else E) x) else None)).
  destruct (proj1 (wp_ex _ _ _) (W ltac:(
    intros pre b post g0 EQ (I1 & I2 & I3); unfold al_getattr; rewrite (I3 b);
    assert (Hb : In b V') by (rewrite EQ; apply in_or_app; right; left; reflexivity);
    assert (Hbm : mem b V' = true) by (apply mem_true; exact Hb);
    assert (Hbp : mem b pre = false) by (apply mem_false; intros X; rewrite EQ in NV; apply NoDup_remove_2 in NV; apply NV; apply in_or_app; left; exact X);
    rewrite Hbm, Hbp; cbn [bind];
    destruct (HV' b Hb) as [_ Hbn];
    assert (OR : outs E' b = filter (fun y => negb (String.eqb n y)) (outs E b)) by (apply outs_rem_vertex; exact Hbn);
    rewrite nd_hasattr by exact Hn;
    destruct (mem_spec n (outs E b)) as [Hnb|Hnb];
    [ unfold node_delattr; cbn [nd n_attrs n_adjacent]; apply mem_true in Hnb as Hnb'; rewrite Hnb'; cbn [bind n_attrs n_adjacent];
      rewrite py_remove_ok by (try (apply outs_nodup; apply (ok_e _ HG)); exact Hnb); cbn [bind]; apply wp_ret;
      split; [exact I1|]; split; [exact I2|]; intros x; cbn [al_setnode al_nodes]; rewrite sget_set; rewrite mem_app, mem_one;
      destruct (SE x b) as [->|Hxb]; [rewrite Hbm, orb_true_r; f_equal; unfold nd; rewrite OR; reflexivity|rewrite orb_false_r; apply I3]
    | apply wp_ret; split; [exact I1|]; split; [exact I2|]; intros x; rewrite I3, mem_app, mem_one; destruct (SE x b) as [->|Hxb]; [|rewrite orb_false_r; reflexivity];
      rewrite Hbm, orb_true_r, Hbp; f_equal; unfold nd; rewrite OR; rewrite filter_id; [reflexivity|];
      intros y Hy; destruct (SE n y) as [->|]; [contradiction|reflexivity] ])
    (mkal V' (dpop (al_nodes g) n) (al_weights g)) ltac:(
      split; [reflexivity|]; split; [reflexivity|]; intros x; cbn [al_nodes]; rewrite sget_pop, H2; unfold V'; rewrite filter_mem; rewrite (seqb_sym n x);
      destruct (SE x n); [rewrite andb_false_r; reflexivity|rewrite andb_true_r; reflexivity]))) as (g' & Eg & I1 & I2 & I3).
  exists g'. split; [exact Eg|]. split; [|exact I2]. constructor; simpl; [exact I1|]. intros x. fold V' E'. rewrite I3. destruct (mem x V'); reflexivity.
Qed.

Lemma step_add_edge g G u v c : al_rep g G -> dg_ok G -> usable u -> usable v -> In u (fst G) -> In v (fst G) ->
  exists g', al_add_edge g u v c = Ret g' /\ al_rep g' (dg_step G (GAddE u v c)) /\
    al_weights g' = match c with Some z => sdset (al_weights g) (ekey u v) (u, v, z) | None => al_weights g end.
Proof.
  intros HR HG Hu Hv Hui Hvi. unfold al_add_edge. rewrite !(rep_hasattr g G) by assumption. rewrite !(rep_getattr g G) by assumption.
  apply mem_true in Hui, Hvi. rewrite Hui, Hvi. cbn [negb bind]. unfold add_adjacent_node. rewrite nd_hasattr by exact Hv.
  destruct G as [V E]. destruct HR as [H1 H2]. cbn [fst snd] in *. cbn [dg_step]. rewrite Hui, Hvi. cbn [andb]. rewrite existsb_edge.
  destruct (mem v (outs E u)) eqn:Hm.
  - cbn [nd n_attrs]. rewrite Hm. cbn [bind].
    assert (R : al_rep (al_setnode g u {| n_attrs := outs E u; n_adjacent := outs E u |})
      (V, map (fun e => if same_edge u v e then (u, v, match c with Some _ => c | None => snd e end) else e) E)).
    { constructor; cbn [al_setnode al_vertices al_nodes fst snd]; [exact H1|]. intros x. rewrite sget_set, H2.
      assert (OE : outs (map (fun e => if same_edge u v e then (u, v, match c with Some _ => c | None => snd e end) else e) E) x = outs E x).
      { apply outs_map. intros e _. destruct (same_edge_spec u v e); simpl; congruence. }
      unfold nd. rewrite OE. destruct (SE x u) as [->|]; [rewrite Hui; reflexivity|reflexivity]. }
    destruct R as [R1 R2]. destruct c as [z|]; eexists; (split; [reflexivity|]); (split; [constructor; assumption|reflexivity]).
  - cbn [nd n_attrs n_adjacent bind].
    assert (R : al_rep (al_setnode g u {| n_attrs := outs E u ++ [v]; n_adjacent := outs E u ++ [v] |}) (V, E ++ [(u, v, c)])).
    { constructor; cbn [al_setnode al_vertices al_nodes fst snd]; [exact H1|]. intros x. rewrite sget_set, H2.
      assert (O1 : outs [(u, v, c)] x = if String.eqb x u then [v] else []) by (unfold outs; simpl; destruct (String.eqb x u); reflexivity).
      unfold nd. rewrite outs_app, O1. clear O1. destruct (SE x u) as [->|]; [rewrite Hui; reflexivity|]. rewrite app_nil_r. reflexivity. }
    destruct R as [R1 R2]. destruct c as [z|]; (eexists; split; [reflexivity|]); (split; [constructor; assumption|reflexivity]).
Qed.

Lemma step_remove_edge g G u v : al_rep g G -> dg_ok G -> usable v -> In u (fst G) -> In v (fst G) -> is_edge G u v ->
  exists g', al_remove_edge g u v = Ret g' /\ al_rep g' (dg_step G (GRemE u v)) /\ al_weights g' = dpop (al_weights g) (ekey u v).
Proof.
  intros HR HG Hv Hui Hvi HE. unfold al_remove_edge. rewrite !(rep_getattr g G) by assumption.
  apply mem_true in Hui, Hvi. rewrite Hui, Hvi. cbn [bind]. unfold remove_adjacent_node. rewrite nd_hasattr by exact Hv.
  destruct G as [V E]. destruct HR as [H1 H2]. cbn [fst snd] in *. unfold is_edge, dg_edges in HE. simpl in HE. apply outs_In in HE as HO. apply mem_true in HO as HM. rewrite HM. cbn [negb].
  cbn [nd n_attrs n_adjacent]. rewrite py_remove_ok by (try (apply outs_nodup; apply (ok_e _ HG)); exact HO). cbn [bind]. unfold node_delattr. cbn [n_attrs n_adjacent]. rewrite HM. cbn [bind].
  eexists. split; [reflexivity|]. split; [|reflexivity]. constructor; cbn [al_setnode al_vertices al_nodes fst snd dg_step]; [exact H1|].
  intros x. rewrite sget_set, H2. unfold nd. rewrite outs_rem_edge. destruct (SE x u) as [->|]; [rewrite Hui; reflexivity|reflexivity].
Qed.
Lemma step_remove_edge_none g G u v : al_rep g G -> usable v -> In u (fst G) -> In v (fst G) -> ~ is_edge G u v -> al_remove_edge g u v = Raise ValueError.
Proof.
  intros HR Hv Hui Hvi HE. unfold al_remove_edge. rewrite !(rep_getattr g G) by assumption.
  apply mem_true in Hui, Hvi. rewrite Hui, Hvi. cbn [bind]. unfold remove_adjacent_node. rewrite nd_hasattr by exact Hv.
  assert (HM : mem v (outs (snd G) u) = false). { apply mem_false. rewrite outs_In. exact HE. } rewrite HM. reflexivity.
Qed.

(** calls on names outside the graph raise and change nothing *)
Lemma dg_nochange_remE G u v : dg_ok G -> ~ is_edge G u v -> dg_step G (GRemE u v) = G.
Proof.
  destruct G as [V E]. intros HG H. simpl. f_equal. unfold is_edge, dg_edges in H. simpl in H. clear HG.
  induction E as [|e E IH]; [reflexivity|]. simpl in *. destruct (same_edge_spec u v e) as [He|He]; [exfalso; apply H; left; exact He|]. simpl. f_equal. apply IH. tauto.
Qed.
Lemma dg_nochange_remV G n : dg_ok G -> ~ In n (fst G) -> dg_step G (GRemV n) = G.
Proof.
  destruct G as [V E]. intros HG H. simpl in *. f_equal.
  - apply filter_id. intros x Hx. destruct (SE n x) as [->|]; [contradiction|reflexivity].
  - assert (HI := ok_in _ HG). unfold is_edge, dg_edges in HI. simpl in HI. clear HG. induction E as [|[[a b] c] E IH]; [reflexivity|]. simpl in *.
    destruct (HI a b (or_introl eq_refl)) as [Ha Hb]. destruct (SE n a) as [->|]; [contradiction|]. destruct (SE n b) as [->|]; [contradiction|]. simpl. f_equal. apply IH.
    intros u v X. apply HI. right. exact X.
Qed.
Lemma remV_absent g G n : al_rep g G -> ~ In n (fst G) -> al_remove_vertex g n = Raise AttributeError.
Proof. intros [_ H] Hn. unfold al_remove_vertex. rewrite H. apply mem_false in Hn. rewrite Hn. reflexivity. Qed.
Lemma addE_absent g G u v c : al_rep g G -> usable u -> usable v -> ~ (In u (fst G) /\ In v (fst G)) -> al_add_edge g u v c = Raise ValueError.
Proof.
  intros HR Hu Hv H. unfold al_add_edge. rewrite !(rep_hasattr g G) by assumption. destruct (mem_spec u (fst G)), (mem_spec v (fst G)); simpl; auto. tauto.
Qed.
Lemma remE_absent g G u v : al_rep g G -> ~ (In u (fst G) /\ In v (fst G)) -> al_remove_edge g u v = Raise AttributeError.
Proof.
  intros HR H. unfold al_remove_edge. rewrite !(rep_getattr g G) by assumption. destruct (mem_spec u (fst G)), (mem_spec v (fst G)); simpl; auto. tauto.
Qed.
Lemma is_edge_dec G u v : {is_edge G u v} + {~ is_edge G u v}.
Proof. destruct (mem v (outs (snd G) u)) eqn:E; [left|right]; [apply mem_true in E|apply mem_false in E]; unfold is_edge, dg_edges; rewrite outs_In in E; exact E. Qed.
Lemma in_dec_s (x : string) l : {In x l} + {~ In x l}.
Proof. apply in_dec, SD. Qed.

(** one call *)
Lemma al_step_ok g G o : al_rep g G -> dg_ok G -> Forall usable (op_names o) ->
  exists g', settle g (al_call g o) = Ret g' /\ al_rep g' (dg_step G o).
Proof.
  intros HR HG HO. destruct o as [n|n|u v c|u v]; cbn [op_names al_call] in *.
  - inversion HO; subst. exists (al_add_vertex g n). split; [reflexivity|]. apply step_add_vertex; assumption.
  - inversion HO; subst. destruct (in_dec_s n (fst G)) as [Hn|Hn].
    + destruct (step_remove_vertex g G n HR HG H1 Hn) as (g' & E & R & _). exists g'. rewrite E. split; [reflexivity|exact R].
    + exists g. rewrite (remV_absent g G n HR Hn). split; [reflexivity|]. rewrite dg_nochange_remV by assumption. exact HR.
  - inversion HO as [|a1 a2 Hu HO2]; subst. inversion HO2 as [|a1 a2 Hv _]; subst.
    destruct (in_dec_s u (fst G)) as [Hui|Hui], (in_dec_s v (fst G)) as [Hvi|Hvi].
    1: { destruct (step_add_edge g G u v c HR HG Hu Hv Hui Hvi) as (g' & E & R & _). exists g'. rewrite E. split; [reflexivity|exact R]. }
    all: exists g; rewrite (addE_absent g G u v c HR Hu Hv) by tauto; (split; [reflexivity|]); destruct G as [V E]; simpl in *;
      repeat match goal with H : ~ In ?x ?l |- _ => apply mem_false in H; rewrite H end; rewrite ?andb_false_r; exact HR.
  - inversion HO as [|a1 a2 Hu HO2]; subst. inversion HO2 as [|a1 a2 Hv _]; subst. destruct (is_edge_dec G u v) as [HE|HE].
    + destruct (ok_in _ HG u v HE) as [Hui Hvi]. destruct (step_remove_edge g G u v HR HG Hv Hui Hvi HE) as (g' & E & R & _). exists g'. rewrite E. split; [reflexivity|exact R].
    + exists g. rewrite dg_nochange_remE by assumption. split; [|exact HR].
      destruct (in_dec_s u (fst G)) as [Hui|Hui], (in_dec_s v (fst G)) as [Hvi|Hvi].
      1: rewrite (step_remove_edge_none g G u v) by assumption; reflexivity.
      all: rewrite (remE_absent g G u v HR) by tauto; reflexivity.
Qed.

Lemma dg0_ok names : NoDup names -> Forall usable names -> dg_ok (names, []).
Proof. intros H1 H2. constructor; simpl; [exact H1|exact H2|constructor|intros u v []]. Qed.
Lemma al_steps_ok ops : forall g G, al_rep g G -> dg_ok G -> Forall (fun o => Forall usable (op_names o)) ops ->
  exists g', forM ops (fun o g => settle g (al_call g o)) g = Ret g' /\ al_rep g' (fold_left dg_step ops G) /\ dg_ok (fold_left dg_step ops G).
Proof.
  induction ops as [|o ops IH]; intros g G HR HG HO; [exists g; split; [reflexivity|split; assumption]|].
  inversion HO; subst. destruct (al_step_ok g G o HR HG H1) as (g1 & E & R1). cbn [forM fold_left]. rewrite E. cbn [bind]. apply IH; [exact R1|apply dg_step_ok; assumption|assumption].
Qed.
Lemma al_run_ok names ops : NoDup names -> Forall usable names -> Forall (fun o => Forall usable (op_names o)) ops ->
  exists g, al_run names ops = Ret g /\ al_rep g (dg_run names ops) /\ dg_ok (dg_run names ops).
Proof. intros H1 H2 H3. apply al_steps_ok; [apply al_new_rep|apply dg0_ok; assumption|exact H3]. Qed.

(** number of edges *)
Definition zsum (f : string -> Z) (V : list string) : Z := fold_right (fun v n => f v + n) 0 V.
Lemma fold_zsum f V : forall acc, fold_left (fun acc v => acc + f v) V acc = acc + zsum f V.
Proof. induction V as [|a V IH]; intros acc; simpl; [lia|]. rewrite IH. lia. Qed.
Lemma zsum_ext f h V : (forall x, In x V -> f x = h x) -> zsum f V = zsum h V.
Proof. induction V as [|a V IH]; intros H; [reflexivity|]. simpl. rewrite (H a) by (left; reflexivity). rewrite IH by (intros; apply H; right; assumption). reflexivity. Qed.
Lemma zsum_bump f h V a k : NoDup V -> In a V -> f a = h a + k -> (forall x, x <> a -> f x = h x) -> zsum f V = zsum h V + k.
Proof.
  induction V as [|x V IH]; intros HN Hi Ha He; [destruct Hi|]. inversion HN; subst. simpl. destruct Hi as [->|Hi].
  - rewrite Ha. rewrite (zsum_ext f h V); [lia|]. intros y Hy. apply He. congruence.
  - rewrite IH by assumption. rewrite (He x) by congruence. lia.
Qed.
Lemma outs_cons a b c E x : outs ((a, b, c) :: E) x = if String.eqb x a then b :: outs E x else outs E x.
Proof. unfold outs. simpl. destruct (String.eqb x a); reflexivity. Qed.
Lemma len_sum E V : NoDup V -> (forall u v, In (u, v) (map fst E) -> In u V) -> zsum (fun v => len (outs E v)) V = len E.
Proof.
  intros HN. induction E as [|[[a b] c] E IH]; intros H.
  - clear. induction V; simpl; [reflexivity|]. rewrite IHV. reflexivity.
  - rewrite (zsum_bump _ (fun v => len (outs E v)) V a 1).
    + rewrite IH by (intros u v X; apply (H u v); right; exact X). unfold len. simpl. lia.
    + exact HN.
    + apply (H a b). left. reflexivity.
    + rewrite outs_cons, String.eqb_refl. unfold len. simpl. lia.
    + intros x Hx. rewrite outs_cons. destruct (SE x a); [contradiction|reflexivity].
Qed.
Lemma rep_num_edges g G : al_rep g G -> dg_ok G -> al_num_edges g = Ret (len (snd G)).
Proof.
  intros HR HG. unfold al_num_edges. rewrite (rep_v _ _ HR). rewrite <- (len_sum (snd G) (fst G)); [|apply HG|intros u v X; apply (ok_in _ HG u v X)].
  replace (zsum _ (fst G)) with (0 + zsum (fun v => len (outs (snd G) v)) (fst G)) by lia. rewrite <- fold_zsum. generalize 0.
  assert (A : forall V, incl V (fst G) -> forall z, forM V (fun v acc => l <- al_neighbors g v;; Ret (acc + len l)) z = Ret (fold_left (fun acc v => acc + len (outs (snd G) v)) V z)).
  { induction V as [|x V IH]; intros HI z; [reflexivity|]. cbn [forM fold_left]. rewrite (rep_neighbors g G x HR HG) by (apply HI; left; reflexivity). cbn [bind]. apply IH.
    intros y Hy. apply HI. right. exact Hy. }
  apply A. apply incl_refl.
Qed.
Lemma rep_is_adjacent g G u v : al_rep g G -> dg_ok G -> In u (fst G) -> usable v -> exists b, al_is_adjacent g u v = Ret b /\ (b = true <-> is_edge G u v).
Proof.
  intros HR HG Hu Hv. unfold al_is_adjacent. rewrite (rep_getattr g G u HR). apply mem_true in Hu. rewrite Hu. cbn [bind]. rewrite nd_hasattr by exact Hv.
  eexists. split; [reflexivity|]. rewrite mem_true. apply outs_In.
Qed.
Lemma rep_is_adjacent_none g G u v : al_rep g G -> ~ In u (fst G) -> al_is_adjacent g u v = Raise AttributeError.
Proof. intros HR Hu. unfold al_is_adjacent. rewrite (rep_getattr g G u HR). apply mem_false in Hu. rewrite Hu. reflexivity. Qed.

