(** Theorems about graphs: containers (C71-C73), searches (C74, C76, C87), topological_sort (C77, C88), shortest paths (C78, C80), names (C89). *)
From Coq Require Import Strings.String Strings.Ascii Sorting.Sorted.
From Verif Require Import Base DsfModel GraphModel GraphSpec GraphDict GraphProofs SearchGraphModel SearchGraphProofs KahnProofs PathModel PathProofs FloydProofs.
Import List.

(** C71 *)
Theorem C71_adjacency_list_refines_edge_set : forall (names : list string) (ops : list gop), NoDup names -> Forall ordinary names -> Forall (fun o => Forall ordinary (op_names o)) ops ->
  let G := dg_run names ops in
  exists g, al_run names ops = Ret g /\ represents (al_view g) G /\
    al_vertices g = fst G /\ al_num_vertices g = len (fst G) /\ al_num_edges g = Ret (len (snd G)) /\
    (forall u v, ordinary v -> In u (fst G) -> exists b, al_is_adjacent g u v = Ret b /\ (b = true <-> is_edge G u v)) /\
    (forall u v, ~ In u (fst G) -> al_is_adjacent g u v = Raise AttributeError) /\
    (forall u, In u (fst G) -> exists l, al_neighbors g u = Ret l /\ NoDup l /\ forall v, In v l <-> is_edge G u v) /\
    (forall u v c, ordinary u -> ordinary v -> ~ (In u (fst G) /\ In v (fst G)) -> al_add_edge g u v c = Raise ValueError) /\
    (forall u v, ordinary u -> ordinary v -> In u (fst G) -> In v (fst G) -> ~ is_edge G u v -> al_remove_edge g u v = Raise ValueError).
Proof.
  intros names ops H1 H2 H3 G. destruct (al_run_ok names ops H1 H2 H3) as (g & E & R & OK). fold G in R, OK. exists g. split; [exact E|]. assert (RP := al_rep_represents g G R OK).
  split; [exact RP|]. split; [apply (rep_v _ _ R)|]. split; [unfold al_num_vertices; rewrite (rep_v _ _ R); reflexivity|]. split; [apply rep_num_edges; assumption|].
  split; [intros u v Hv Hu; apply (rep_is_adjacent g G u v R OK Hu Hv)|]. split; [intros u v Hu; apply (rep_is_adjacent_none g G u v R Hu)|].
  split; [apply RP|]. split; [intros u v c Hu Hv Hn; apply (addE_absent g G u v c R Hu Hv Hn)|]. intros u v Hu Hv Hui Hvi Hn. apply (step_remove_edge_none g G u v R Hv Hui Hvi Hn).
Qed.
Print Assumptions C71_adjacency_list_refines_edge_set.
Definition C71_ops : list gop := [GAddV "d"; GAddE "a" "b" (Some 3); GAddE "b" "c" None; GAddE "c" "d" (Some 1); GAddE "a" "zz" None; GRemV "c"; GAddE "d" "a" None; GRemE "a" "b"; GAddV "c"]%string.
Example C71_case : let names := ["a"; "b"; "c"]%string in
  NoDup names /\ Forall ordinary names /\ Forall (fun o => Forall ordinary (op_names o)) C71_ops /\
  fst (dg_run names C71_ops) = ["a"; "b"; "d"; "c"]%string /\ dg_edges (dg_run names C71_ops) = [("d", "a")]%string.
Proof.
  split; [repeat constructor; simpl; intuition discriminate|]. split; [repeat constructor; simpl; intuition discriminate|]. split; [repeat constructor; simpl; intuition discriminate|]. vm_compute. auto.
Qed.

(** C72: everything but num_edges; num_edges is exact as long as remove_edge is never called *)
Theorem C72_adjacency_matrix_refines_edge_set_partial : forall (names : list string) (ops : list gop), NoDup names -> Forall ordinary names -> Forall (fun o => Forall ordinary (op_names o)) ops ->
  let G := dg_run_static names ops in
  exists g, am_run names ops = Ret g /\ represents (am_view g) G /\
    am_vertices g = names /\ am_num_vertices g = len names /\
    (forall u v, am_is_adjacent g u v = true <-> is_edge G u v) /\
    (forall u, exists l, am_neighbors g u = Ret l /\ NoDup l /\ forall v, In v l <-> is_edge G u v) /\
    (forall u v c, ~ (In u names /\ In v names) -> am_add_edge g u v c = Raise ValueError) /\
    (Forall (fun o => is_remove_edge o = false) ops -> am_num_edges g = len (snd G)).
Proof.
  intros names ops H1 H2 H3 G. destruct (am_run_ok names ops H1 H2 H3) as (g & E & R & OK & W). fold G in R, OK, W.
  assert (FV : forall ops G0, fst (fold_left dg_step_static ops G0) = fst G0).
  { clear. induction ops as [|o ops IH]; intros G0; [reflexivity|]. cbn [fold_left]. rewrite IH. destruct o; try reflexivity; cbn [dg_step_static]; [apply fst_addE|destruct G0; reflexivity]. }
  assert (FG : fst G = names) by apply (FV ops (names, [])).
  exists g. split; [exact E|]. split; [apply am_rep_represents; assumption|]. split; [rewrite (amr_v _ _ R); exact FG|]. split; [unfold am_num_vertices; rewrite (amr_v _ _ R), FG; reflexivity|].
  split; [intros u v; apply am_rep_adjacent; assumption|]. split; [intros u; apply am_rep_neighbors; assumption|]. split.
  - intros u v c Hn. unfold am_add_edge. destruct (sdget (am_matrix g) u) as [ru|] eqn:Eu; [|reflexivity]. destruct (sdget (am_matrix g) v) as [rv|] eqn:Ev; [|reflexivity].
    exfalso. apply Hn. rewrite <- FG. split; apply (amr_n _ _ R); eauto.
  - intros H4. apply am_num_edges_true; [exact R|exact OK|]. apply (am_true_run names ops H1 H2 H3 H4 g E).
Qed.
Print Assumptions C72_adjacency_matrix_refines_edge_set_partial.
Definition C72_ops : list gop := [GAddE "a" "b" (Some 3); GAddE "b" "c" None; GAddV "zz"; GAddE "a" "zz" None; GAddE "c" "a" (Some (-1)); GAddE "a" "b" (Some 7)]%string.
Example C72_case : let names := ["a"; "b"; "c"]%string in
  NoDup names /\ Forall ordinary names /\ Forall (fun o => Forall ordinary (op_names o)) C72_ops /\ Forall (fun o => is_remove_edge o = false) C72_ops /\
  snd (dg_run_static names C72_ops) = [("a", "b", Some 7); ("b", "c", None); ("c", "a", Some (-1))]%string.
Proof.
  split; [repeat constructor; simpl; intuition discriminate|]. split; [repeat constructor; simpl; intuition discriminate|]. split; [repeat constructor; simpl; intuition discriminate|].
  split; [repeat constructor|]. vm_compute. reflexivity.
Qed.
Theorem C72_num_edges_after_remove_edge_refuted : exists names ops g, am_run names ops = Ret g /\ dg_edges (dg_run_static names ops) = [] /\ am_num_edges g = 1.
Proof. exists ["a"; "b"]%string, [GAddE "a" "b" None; GRemE "a" "b"]%string. eexists. split; [vm_compute; reflexivity|]. split; reflexivity. Qed.
Print Assumptions C72_num_edges_after_remove_edge_refuted.

(** C73: adjacency lists without remove_vertex, matrices; ordinary names *)
Theorem C73_adjacency_list_get_edge_partial : forall (names : list string) (ops : list gop), NoDup names -> Forall ordinary names -> Forall (fun o => Forall ordinary (op_names o)) ops ->
  Forall (fun o => is_remove_vertex o = false) ops ->
  let G := dg_run names ops in
  exists g, al_run names ops = Ret g /\ represents_costs (al_view g) G /\
    forall u v, ordinary u -> match al_get_edge g u v with Some e => exists c, e = (u, v, c) /\ has_cost G u v c | None => forall c, ~ has_cost G u v c end.
Proof.
  intros names ops H1 H2 H3 H4 G. destruct (al_wrun_ok names ops H1 H2 H3 H4) as (g & E & R & OK & W). exists g. split; [exact E|]. split; [exact W|].
  intros u v Hu. unfold al_get_edge. apply (wrep_get (al_weights g) G u v W OK). apply ordinary_no_us. exact Hu.
Qed.
Print Assumptions C73_adjacency_list_get_edge_partial.
Theorem C73_adjacency_matrix_get_edge_partial : forall (names : list string) (ops : list gop), NoDup names -> Forall ordinary names -> Forall (fun o => Forall ordinary (op_names o)) ops ->
  let G := dg_run_static names ops in
  exists g, am_run names ops = Ret g /\ represents_costs (am_view g) G /\
    forall u v, ordinary u -> match am_get_edge g u v with Some e => exists c, e = (u, v, c) /\ has_cost G u v c | None => forall c, ~ has_cost G u v c end.
Proof.
  intros names ops H1 H2 H3 G. destruct (am_run_ok names ops H1 H2 H3) as (g & E & R & OK & W). exists g. split; [exact E|]. split; [exact W|].
  intros u v Hu. unfold am_get_edge. apply (wrep_get (am_weights g) G u v W OK). apply ordinary_no_us. exact Hu.
Qed.
Print Assumptions C73_adjacency_matrix_get_edge_partial.
Definition C73_ops : list gop := [GAddE "a" "b" (Some 3); GAddE "b" "c" None; GAddE "c" "a" (Some (-1)); GAddE "a" "b" (Some 7); GRemE "c" "a"; GAddE "c" "a" None; GAddE "a" "b" None]%string.
Example C73_case : let names := ["a"; "b"; "c"]%string in
  NoDup names /\ Forall ordinary names /\ Forall (fun o => Forall ordinary (op_names o)) C73_ops /\ Forall (fun o => is_remove_vertex o = false) C73_ops /\
  snd (dg_run names C73_ops) = [("a", "b", Some 7); ("b", "c", None); ("c", "a", None)]%string /\
  (exists g, al_run names C73_ops = Ret g /\ al_get_edge g "a" "b" = Some ("a", "b", 7)%string /\ al_get_edge g "c" "a" = None).
Proof.
  split; [repeat constructor; simpl; intuition discriminate|]. split; [repeat constructor; simpl; intuition discriminate|]. split; [repeat constructor; simpl; intuition discriminate|].
  split; [repeat constructor|]. split; [vm_compute; reflexivity|]. eexists. split; [vm_compute; reflexivity|]. vm_compute. auto.
Qed.
(** a name with an underscore: two edges share the key in edge_weights *)
Theorem C73_underscore_names_refuted :
  (exists g, al_run ["a"; "b_c"; "a_b"; "c"]%string [GAddE "a" "b_c" (Some 1); GAddE "a_b" "c" (Some 2)]%string = Ret g /\ al_get_edge g "a" "b_c" = Some ("a_b", "c", 2)%string) /\
  (exists g, am_run ["a"; "b_c"; "a_b"; "c"]%string [GAddE "a" "b_c" (Some 1); GAddE "a_b" "c" (Some 2)]%string = Ret g /\ am_get_edge g "a" "b_c" = Some ("a_b", "c", 2)%string).
Proof. split; (eexists; split; vm_compute; reflexivity). Qed.
Print Assumptions C73_underscore_names_refuted.
(** remove_vertex leaves the costs of its edges behind *)
Theorem C73_stale_after_remove_vertex_refuted : exists names ops g, al_run names ops = Ret g /\ Forall ordinary names /\ dg_edges (dg_run names ops) = [] /\ al_get_edge g "a" "b" = Some ("a", "b", 5)%string.
Proof.
  exists ["a"; "b"]%string, [GAddE "a" "b" (Some 5); GRemV "b"; GAddV "b"]%string. eexists. split; [vm_compute; reflexivity|]. split; [repeat constructor; simpl; intuition discriminate|]. split; vm_compute; reflexivity.
Qed.
Print Assumptions C73_stale_after_remove_vertex_refuted.

(** C89: a vertex named like an attribute of a node object is adjacent to everything *)
Theorem C89_attribute_names_refuted : exists g, al_run ["a"; "name"]%string [] = Ret g /\ al_is_adjacent g "a" "name" = Ret true /\ al_num_edges g = Ret 0 /\ al_add_edge g "a" "name" None = Raise AttributeError.
Proof. eexists. split; [vm_compute; reflexivity|]. vm_compute. auto. Qed.
Print Assumptions C89_attribute_names_refuted.

(** C74 *)
Theorem C74_bfs_reachable_by_distance : forall (g : gview) (G : dg) (s : string), represents g G -> In s (fst G) ->
  exists calls, breadth_first_search g s yes = Ret calls /\
    let D := s :: discovered calls in
    NoDup D /\ (forall v, In v D <-> reachable G s v) /\
    (exists dist : string -> nat, (forall v, In v D -> distance G s v (dist v)) /\ StronglySorted (fun a b => (dist a <= dist b)%nat) D /\
       (forall c n, In (c, n) calls -> n <> EmptyString -> is_edge G c n /\ dist n = S (dist c))) /\
    (forall c, In (c, EmptyString) calls <-> reachable G s c /\ (forall v, ~ is_edge G c v)) /\
    NoDup (map fst (filter (fun e => String.eqb (snd e) EmptyString) calls)).
Proof. intros g G s H Hs. exact (bfs_main g G H s Hs). Qed.
Print Assumptions C74_bfs_reachable_by_distance.
(** C76 *)
Theorem C76_dfs_reachable_once : forall (g : gview) (G : dg) (s : string), represents g G -> In s (fst G) ->
  exists calls, depth_first_search g s yes = Ret calls /\
    let D := s :: discovered calls in
    NoDup D /\ (forall v, In v D <-> reachable G s v) /\
    (forall c n, In (c, n) calls -> n <> EmptyString -> is_edge G c n) /\
    (forall c, In (c, EmptyString) calls <-> reachable G s c /\ (forall v, ~ is_edge G c v)) /\
    NoDup (map fst (filter (fun e => String.eqb (snd e) EmptyString) calls)).
Proof. intros g G s H Hs. exact (dfs_main g G H s Hs). Qed.
Print Assumptions C76_dfs_reachable_once.
(** a cyclic graph with an unreachable vertex, as a list and as a matrix *)
Definition C74_ops : list gop := [GAddE "a" "b" None; GAddE "a" "c" None; GAddE "b" "d" None; GAddE "c" "d" None; GAddE "d" "a" None; GAddE "u" "a" None; GAddE "d" "e" None]%string.
Definition C74_names : list string := ["a"; "b"; "c"; "d"; "e"; "u"]%string.
Example C74_case : (exists g, al_run C74_names C74_ops = Ret g /\ represents (al_view g) (dg_run C74_names C74_ops) /\
    breadth_first_search (al_view g) "a" yes = Ret [("a", "b"); ("a", "c"); ("b", "d"); ("d", "e"); ("e", "")]%string) /\
  (exists g, am_run C74_names C74_ops = Ret g /\ represents (am_view g) (dg_run_static C74_names C74_ops) /\
    depth_first_search (am_view g) "a" yes = Ret [("a", "b"); ("a", "c"); ("c", "d"); ("d", "e"); ("e", "")]%string).
Proof.
  assert (N : NoDup C74_names) by (repeat constructor; simpl; intuition discriminate).
  assert (O : Forall ordinary C74_names) by (repeat constructor; simpl; intuition discriminate).
  assert (P : Forall (fun o => Forall ordinary (op_names o)) C74_ops) by (repeat constructor; simpl; intuition discriminate).
  split.
  - destruct (C71_adjacency_list_refines_edge_set _ _ N O P) as (g & E & R & _). exists g. split; [exact E|]. split; [exact R|]. vm_compute in E. injection E as <-. vm_compute. reflexivity.
  - destruct (C72_adjacency_matrix_refines_edge_set_partial _ _ N O P) as (g & E & R & _). exists g. split; [exact E|]. split; [exact R|]. vm_compute in E. injection E as <-. vm_compute. reflexivity.
Qed.

(** C87: any operation *)
Theorem C87_search_stops_at_first_falsy : forall (g : gview) (G : dg) (s : string) (op : call_log -> string -> string -> bool), represents g G -> In s (fst G) ->
  (exists calls, breadth_first_search g s yes = Ret calls /\ breadth_first_search g s op = Ret (upto op [] calls)) /\
  (exists calls, depth_first_search g s yes = Ret calls /\ depth_first_search g s op = Ret (upto op [] calls)).
Proof.
  intros g G s op H Hs. split.
  - destruct (bfs_main g G H s Hs) as (calls & E & _). exists calls. split; [exact E|]. apply search_stop_top. exact E.
  - destruct (dfs_main g G H s Hs) as (calls & E & _). exists calls. split; [exact E|]. apply search_stop_top. exact E.
Qed.
Print Assumptions C87_search_stops_at_first_falsy.
Example C87_case : exists g, al_run C74_names C74_ops = Ret g /\
    breadth_first_search (al_view g) "a" (fun _ _ n => negb (String.eqb n "d")) = Ret [("a", "b"); ("a", "c"); ("b", "d")]%string.
Proof. eexists. split; [vm_compute; reflexivity|]. vm_compute. reflexivity. Qed.

(** C77 *)
Theorem C77_topological_sort : forall (names : list string) (ops : list gop), NoDup names -> Forall ordinary names -> Forall (fun o => Forall ordinary (op_names o)) ops ->
  let G := dg_run names ops in
  exists g, al_run names ops = Ret g /\
    (acyclic G -> exists L g', kahn g = Ret (L, g') /\ linear_extension G L) /\ (~ acyclic G -> kahn g = Raise ValueError).
Proof.
  intros names ops H1 H2 H3 G. destruct (al_run_ok names ops H1 H2 H3) as (g & E & R & OK). exists g. split; [exact E|]. destruct (kahn_main g G R OK) as [K1 K2]. split; [|exact K2].
  intros A. destruct (K1 A) as (L & g' & X & Y & _). eauto.
Qed.
Print Assumptions C77_topological_sort.
Example C77_case : (exists g g', al_run ["a"; "b"; "c"; "d"]%string [GAddE "d" "b" None; GAddE "b" "a" None; GAddE "d" "a" None; GAddE "c" "a" None]%string = Ret g /\ kahn g = Ret (["c"; "d"; "b"; "a"]%string, g')) /\
  (exists g, al_run ["a"; "b"; "c"]%string [GAddE "a" "b" None; GAddE "b" "c" None; GAddE "c" "b" None]%string = Ret g /\ kahn g = Raise ValueError).
Proof. split; [do 2 eexists; split; vm_compute; reflexivity|eexists; split; vm_compute; reflexivity]. Qed.

(** C88: the caller's graph afterwards has no edges *)
Theorem C88_topological_sort_empties_graph : forall (names : list string) (ops : list gop), NoDup names -> Forall ordinary names -> Forall (fun o => Forall ordinary (op_names o)) ops ->
  forall g L g', al_run names ops = Ret g -> kahn g = Ret (L, g') ->
  al_vertices g' = fst (dg_run names ops) /\ al_num_edges g' = Ret 0 /\ forall u, In u (fst (dg_run names ops)) -> al_neighbors g' u = Ret [].
Proof.
  intros names ops H1 H2 H3 g L g' E K. destruct (al_run_ok names ops H1 H2 H3) as (g0 & E0 & R & OK). rewrite E in E0. injection E0 as <-. destruct (kahn_main g _ R OK) as [K1 K2].
  assert (A : acyclic (dg_run names ops)). { intros v n Hc. rewrite K2 in K; [discriminate|]. intros A. apply (A v n Hc). }
  destruct (K1 A) as (L1 & g1 & X & _ & R1 & OK1). rewrite K in X. injection X as <- <-. split; [apply (rep_v _ _ R1)|]. split; [rewrite (rep_num_edges _ _ R1 OK1); reflexivity|].
  intros u Hu. rewrite (rep_neighbors _ _ u R1 OK1 Hu). reflexivity.
Qed.
Print Assumptions C88_topological_sort_empties_graph.
Theorem C88_graph_unchanged_refuted : exists g L g', al_run ["a"; "b"]%string [GAddE "a" "b" (Some 1)]%string = Ret g /\ kahn g = Ret (L, g') /\
  al_is_adjacent g "a" "b" = Ret true /\ al_is_adjacent g' "a" "b" = Ret false /\ al_get_edge g' "a" "b" = None.
Proof. do 3 eexists. split; [vm_compute; reflexivity|]. split; [vm_compute; reflexivity|]. vm_compute. auto. Qed.
Print Assumptions C88_graph_unchanged_refuted.

(** C78 *)
Theorem C78_bellman_ford_exact : forall (g : gview) (G : dg) (s : string), represents g G -> represents_costs g G -> weighted G -> In s (fst G) ->
  match bellman_ford_all g s with
  | Ret (distances, predecessor) =>
      ~ negative_cycle_from G s /\ map fst distances = fst G /\ map fst predecessor = fst G /\
      (forall v d, In (v, Some d) distances -> least_cost G s v d) /\ (forall v, In (v, None) distances -> ~ reachable G s v) /\
      (forall v, In (v, None) predecessor -> v = s \/ ~ reachable G s v) /\
      (forall v u, In (v, Some u) predecessor -> exists c dv du, has_cost G u v c /\ least_cost G s v dv /\ least_cost G s u du /\ dv = du + c)
  | Raise e => e = ValueError /\ negative_cycle_from G s
  | OutOfFuel => False
  end.
Proof.
  intros g G s H1 H2 H3 H4. assert (X := bf_main g G H1 H2 H3 s H4). destruct (bellman_ford_all g s) as [[dist pr]|e|]; cbn [wpx] in X; [|exact X|exact X]. destruct X as [X N]. split; [exact N|exact X].
Qed.
Print Assumptions C78_bellman_ford_exact.
Theorem C78_bellman_ford_target : forall (g : gview) (G : dg) (s t : string), represents g G -> represents_costs g G -> weighted G -> In s (fst G) -> In t (fst G) ->
  match bellman_ford_to g s t with
  | Ret (Some d, _) => ~ negative_cycle_from G s /\ least_cost G s t d
  | Ret (None, _) => ~ negative_cycle_from G s /\ ~ reachable G s t
  | Raise e => e = ValueError /\ negative_cycle_from G s
  | OutOfFuel => False
  end.
Proof.
  intros g G s t H1 H2 H3 H4 Ht. assert (X := C78_bellman_ford_exact g G s H1 H2 H3 H4). unfold bellman_ford_to. destruct (bellman_ford_all g s) as [[dist pr]|e|]; cbn [bind]; [|exact X|exact X].
  destruct X as (N & K & _ & A & B & _). unfold dgetE. destruct (sget_some dist t) as [o Eo]; [rewrite K; exact Ht|]. rewrite Eo. cbn [bind]. apply sget_In in Eo. destruct o as [d|]; (split; [exact N|]); [apply A|apply B]; exact Eo.
Qed.
Print Assumptions C78_bellman_ford_target.
Definition C78_ops : list gop := [GAddE "a" "b" (Some 4); GAddE "a" "c" (Some 2); GAddE "c" "b" (Some (-3)); GAddE "b" "d" (Some 1); GAddE "d" "c" (Some 5)]%string.
Definition C78_names : list string := ["a"; "b"; "c"; "d"; "u"]%string.
Lemma C78_hyps : forall k, exists g, al_run C78_names (C78_ops ++ [GAddE "b" "c" (Some k)]%string) = Ret g /\
  let G := dg_run C78_names (C78_ops ++ [GAddE "b" "c" (Some k)]%string) in represents (al_view g) G /\ represents_costs (al_view g) G /\ weighted G.
Proof.
  intros k. assert (N : NoDup C78_names) by (repeat constructor; simpl; intuition discriminate).
  assert (O : Forall ordinary C78_names) by (repeat constructor; simpl; intuition discriminate).
  assert (P : Forall (fun o => Forall ordinary (op_names o)) (C78_ops ++ [GAddE "b" "c" (Some k)]%string)) by (repeat constructor; simpl; intuition discriminate).
  assert (Q : Forall (fun o => is_remove_vertex o = false) (C78_ops ++ [GAddE "b" "c" (Some k)]%string)) by repeat constructor.
  destruct (C71_adjacency_list_refines_edge_set _ _ N O P) as (g & E & R & _). destruct (C73_adjacency_list_get_edge_partial _ _ N O P Q) as (g' & E' & R' & _). rewrite E in E'. injection E' as <-.
  exists g. split; [exact E|]. split; [exact R|]. split; [exact R'|]. unfold weighted, is_edge, has_cost, dg_edges. cbv -[In]. intros u v H. cbn [In] in H.
  repeat (destruct H as [[= <- <-]|H]; [eexists; cbn [In]; eauto 10|]). destruct H.
Qed.
Example C78_case : (exists g, al_run C78_names (C78_ops ++ [GAddE "b" "c" (Some 3)]%string) = Ret g /\
     bellman_ford_all (al_view g) "a" = Ret ([("a", Some 0); ("b", Some (-1)); ("c", Some 2); ("d", Some 0); ("u", None)],
        [("a", None); ("b", Some "c"); ("c", Some "a"); ("d", Some "b"); ("u", None)])%string) /\
  (exists g, al_run C78_names (C78_ops ++ [GAddE "b" "c" (Some 2)]%string) = Ret g /\ bellman_ford_all (al_view g) "a" = Raise ValueError).
Proof. split; (eexists; split; vm_compute; reflexivity). Qed.

(** C80: the distances; next_vertex is wrong *)
Theorem C80_floyd_warshall_distances_partial : forall (g : gview) (G : dg), represents g G -> represents_costs g G -> no_negative_cycle G ->
  exists dist nxt, floyd_warshall g = Ret (dist, nxt) /\ map fst dist = fst G /\ map fst nxt = fst G /\
    forall i j, In i (fst G) -> In j (fst G) -> match dist2 dist i j with Some d => least_cost G i j d | None => forall n w, ~ cwalk G i n w j end.
Proof. exact floyd_main. Qed.
Print Assumptions C80_floyd_warshall_distances_partial.
(** the hypothesis about cycles holds of the sample graph: a potential bounds every walk from below *)
Example C80_hyps : no_negative_cycle (dg_run C78_names (C78_ops ++ [GAddE "b" "c" (Some 3)]%string)).
Proof.
  set (p := fun x => if String.eqb x "b" then -1 else if String.eqb x "c" then 2 else 0).
  assert (A : forall v n w x, cwalk (dg_run C78_names (C78_ops ++ [GAddE "b" "c" (Some 3)]%string)) v n w x -> p x - p v <= w).
  { intros v n w x H. induction H as [|n w u x c H IH Hc]; [lia|]. assert (p x <= p u + c); [|lia]. clear - Hc. unfold has_cost in Hc.
    cbv -[In p Z.add Z.le] in Hc. cbn [In] in Hc. repeat (destruct Hc as [[= <- <- <-]|Hc]; [vm_compute; discriminate|]). destruct Hc. }
  intros v n w H. apply A in H. lia.
Qed.
Example C80_case : exists g, al_run C78_names (C78_ops ++ [GAddE "b" "c" (Some 3)]%string) = Ret g /\ exists d nx, floyd_warshall (al_view g) = Ret (d, nx) /\
   map (dist2 d "a") C78_names = [Some 0; Some (-1); Some 2; Some 0; None]%string /\ map (dist2 d "d") C78_names = [None; Some 2; Some 5; Some 0; None]%string.
Proof. eexists. split; [vm_compute; reflexivity|]. do 2 eexists. split; [vm_compute; reflexivity|]. split; vm_compute; reflexivity. Qed.
(** a -> b -> c: next_vertex[a][c] is None although c can be reached *)
Theorem C80_next_vertex_refuted : exists g d nx, al_run ["a"; "b"; "c"]%string [GAddE "a" "b" (Some 1); GAddE "b" "c" (Some 1)]%string = Ret g /\
   floyd_warshall (al_view g) = Ret (d, nx) /\ dist2 d "a" "c" = Some 2 /\ match sdget nx "a"%string with Some row => sdget row "c"%string | None => None end = Some None.
Proof. do 3 eexists. split; [vm_compute; reflexivity|]. split; [vm_compute; reflexivity|]. split; vm_compute; reflexivity. Qed.
Print Assumptions C80_next_vertex_refuted.
