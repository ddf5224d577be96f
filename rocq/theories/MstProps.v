(** Kruskal's minimum spanning trees: C81, C90. *)
From Coq Require Import Strings.String Strings.Ascii.
From Verif Require Import Base DsfSpec GraphModel GraphSpec GraphProofs MstModel MstSpec MstProofs KruskalProofs.
Import List.

(** a history of graph calls: distinct ordinary names *)
Definition fair (names : list string) (ops : list gop) : Prop := NoDup names /\ Forall ordinary names /\ Forall (fun o => Forall ordinary (op_names o)) ops.

(** C81: the costs held by the result are those of a minimum spanning forest of the priced edges (each read as undirected) *)
Theorem C81_kruskal_adjacency_list_partial : forall (names : list string) (ops : list gop), fair names ops -> Forall (fun o => is_remove_vertex o = false) ops ->
  let G := dg_run names ops in
  exists g mst g' T, al_run names ops = Ret g /\ kruskal_al sort_edges g = Ret (mst, g') /\
    minimum_spanning_forest (priced G) T /\ al_vertices mst = fst G /\ holds_both_ways (al_weights mst) T.
Proof.
  intros names ops (H1 & H2 & H3) H4 G. destruct (al_wrun_ok names ops H1 H2 H3 H4) as (g & E & R & OK & W).
  destruct (kruskal_al_ok _ OK g sort_edges R W (sort_edges_ok _)) as (mst & g' & T & EK & M & EV & EW). exists g, mst, g', T. split; [exact E|]. split; [exact EK|]. split; [exact M|]. split; [exact EV|].
  rewrite EW. eapply both_ways_costs; eassumption.
Qed.
Print Assumptions C81_kruskal_adjacency_list_partial.
Theorem C81_kruskal_parallel_adjacency_list_partial : forall (names : list string) (ops : list gop) (num_threads : Z), 0 < num_threads -> fair names ops -> Forall (fun o => is_remove_vertex o = false) ops ->
  let G := dg_run names ops in priced G <> [] ->
  exists g mst g' T, al_run names ops = Ret g /\ kruskal_al (sort_edges_parallel num_threads) g = Ret (mst, g') /\
    minimum_spanning_forest (priced G) T /\ al_vertices mst = fst G /\ holds_both_ways (al_weights mst) T.
Proof.
  intros names ops n Hn (H1 & H2 & H3) H4 G NE. destruct (al_wrun_ok names ops H1 H2 H3 H4) as (g & E & R & OK & W).
  assert (NW : gv_weights (al_view g) <> []). { intros X. apply NE. assert (P := weights_priced (al_view g) _ OK W). rewrite X in P. cbn [map] in P. apply Permutation_nil in P. exact P. }
  destruct (kruskal_al_ok _ OK g (sort_edges_parallel n) R W (sort_edges_parallel_ok n _ Hn NW)) as (mst & g' & T & EK & M & EV & EW). exists g, mst, g', T. split; [exact E|]. split; [exact EK|]. split; [exact M|]. split; [exact EV|].
  rewrite EW. eapply both_ways_costs; eassumption.
Qed.
Print Assumptions C81_kruskal_parallel_adjacency_list_partial.
Theorem C81_kruskal_adjacency_matrix_partial : forall (names : list string) (ops : list gop), fair names ops ->
  let G := dg_run_static names ops in
  exists g mst T, am_run names ops = Ret g /\ kruskal_am sort_edges g = Ret mst /\
    minimum_spanning_forest (priced G) T /\ am_vertices mst = fst G /\ holds_both_ways (am_weights mst) T.
Proof.
  intros names ops (H1 & H2 & H3) G. destruct (am_run_ok names ops H1 H2 H3) as (g & E & R & OK & W).
  destruct (kruskal_am_ok _ OK g sort_edges R W (sort_edges_ok _) (ok_ord _ OK)) as (mst & T & EK & M & EV & EW & _). exists g, mst, T. split; [exact E|]. split; [exact EK|]. split; [exact M|]. split; [exact EV|].
  rewrite EW. eapply both_ways_costs; eassumption.
Qed.
Print Assumptions C81_kruskal_adjacency_matrix_partial.
Theorem C81_kruskal_parallel_adjacency_matrix_partial : forall (names : list string) (ops : list gop) (num_threads : Z), 0 < num_threads -> fair names ops ->
  let G := dg_run_static names ops in priced G <> [] ->
  exists g mst T, am_run names ops = Ret g /\ kruskal_am (sort_edges_parallel num_threads) g = Ret mst /\
    minimum_spanning_forest (priced G) T /\ am_vertices mst = fst G /\ holds_both_ways (am_weights mst) T.
Proof.
  intros names ops n Hn (H1 & H2 & H3) G NE. destruct (am_run_ok names ops H1 H2 H3) as (g & E & R & OK & W).
  assert (NW : gv_weights (am_view g) <> []). { intros X. apply NE. assert (P := weights_priced (am_view g) _ OK W). rewrite X in P. cbn [map] in P. apply Permutation_nil in P. exact P. }
  destruct (kruskal_am_ok _ OK g (sort_edges_parallel n) R W (sort_edges_parallel_ok n _ Hn NW) (ok_ord _ OK)) as (mst & T & EK & M & EV & EW & _). exists g, mst, T. split; [exact E|]. split; [exact EK|]. split; [exact M|]. split; [exact EV|].
  rewrite EW. eapply both_ways_costs; eassumption.
Qed.
Print Assumptions C81_kruskal_parallel_adjacency_matrix_partial.
Definition C81_names : list string := ["a"; "b"; "c"; "d"; "e"]%string.
Definition both (u v : string) (c : Z) : list gop := [GAddE u v (Some c); GAddE v u (Some c)].
Definition C81_ops : list gop := List.app (both "a" "b" 4) (List.app (both "b" "c" 1) (List.app (both "a" "c" 2) (both "d" "e" (-3)))).

Example C81_hyps : fair C81_names C81_ops /\ Forall (fun o => is_remove_vertex o = false) C81_ops /\ priced (dg_run C81_names C81_ops) <> [].
Proof. split; [|split; [repeat constructor|discriminate]]. split; [repeat constructor; simpl; intuition discriminate|]. split; repeat constructor; simpl; intuition discriminate. Qed.
Definition C81_out : list edge := [("d", "e", -3); ("e", "d", -3); ("b", "c", 1); ("c", "b", 1); ("a", "c", 2); ("c", "a", 2)]%string.
Example C81_case : (exists g mst g', al_run C81_names C81_ops = Ret g /\ kruskal_al sort_edges g = Ret (mst, g') /\ map snd (al_weights mst) = C81_out) /\
  (exists g mst g', al_run C81_names C81_ops = Ret g /\ kruskal_al (sort_edges_parallel 2) g = Ret (mst, g') /\ map snd (al_weights mst) = C81_out).
Proof. split; (do 3 eexists; split; [vm_compute; reflexivity|]; split; [vm_compute; reflexivity|vm_compute; reflexivity]). Qed.
(** with no priced edge the parallel variant raises ValueError: math.log(0, 2) in merge_sort_parallel *)
Theorem C81_kruskal_parallel_no_edges_refuted : exists g, al_run ["a"; "b"]%string [] = Ret g /\ (exists mst g', kruskal_al sort_edges g = Ret (mst, g')) /\ kruskal_al (sort_edges_parallel 2) g = Raise ValueError.
Proof. eexists. split; [vm_compute; reflexivity|]. split; [do 2 eexists; vm_compute; reflexivity|vm_compute; reflexivity]. Qed.
Print Assumptions C81_kruskal_parallel_no_edges_refuted.

(** C90: the returned graph is adjacent exactly along the chosen edges: matrices *)
Theorem C90_tree_adjacency_matrix : forall (names : list string) (ops : list gop), fair names ops ->
  let G := dg_run_static names ops in
  exists g mst T, am_run names ops = Ret g /\ kruskal_am sort_edges g = Ret mst /\ minimum_spanning_forest (priced G) T /\
    (forall u v, am_is_adjacent mst u v = true <-> exists c, In (u, v, c) T \/ In (v, u, c) T) /\
    (forall u, exists l, am_neighbors mst u = Ret l /\ NoDup l /\ forall v, In v l <-> exists c, In (u, v, c) T \/ In (v, u, c) T).
Proof.
  intros names ops (H1 & H2 & H3) G. destruct (am_run_ok names ops H1 H2 H3) as (g & E & R & OK & W).
  destruct (kruskal_am_ok _ OK g sort_edges R W (sort_edges_ok _) (ok_ord _ OK)) as (mst & T & EK & M & EV & EW & G' & R' & OK' & EE). exists g, mst, T. split; [exact E|]. split; [exact EK|]. split; [exact M|]. split.
  - intros u v. rewrite <- EE. apply am_rep_adjacent; assumption.
  - intros u. destruct (am_rep_neighbors mst G' u R' OK') as (l & El & N & HL). exists l. split; [exact El|]. split; [exact N|]. intros v. rewrite HL. apply EE.
Qed.
Print Assumptions C90_tree_adjacency_matrix.
Example C90_case : exists g mst, am_run C81_names C81_ops = Ret g /\ kruskal_am sort_edges g = Ret mst /\ am_is_adjacent mst "a" "c" = true /\ am_is_adjacent mst "a" "b" = false /\ am_is_adjacent g "a" "b" = true.
Proof. do 2 eexists. split; [vm_compute; reflexivity|]. split; [vm_compute; reflexivity|]. vm_compute. auto. Qed.
(** adjacency lists: the result shares the nodes of the given graph, so the edge a-b that is not in the tree is still there,
    and a one-way edge of the given graph becomes two-way *)
Theorem C90_tree_adjacency_list_refuted : 
  (exists g mst g', al_run C81_names C81_ops = Ret g /\ kruskal_al sort_edges g = Ret (mst, g') /\ al_get_edge mst "a" "b" = None /\ al_is_adjacent mst "a" "b" = Ret true /\ al_neighbors mst "a" = Ret ["b"; "c"]%string) /\
  (exists g mst g', al_run ["a"; "b"]%string [GAddE "a" "b" (Some 1)]%string = Ret g /\ kruskal_al sort_edges g = Ret (mst, g') /\ al_is_adjacent g "b" "a" = Ret false /\ al_is_adjacent g' "b" "a" = Ret true).
Proof. split; (do 3 eexists; split; [vm_compute; reflexivity|]; split; [vm_compute; reflexivity|]; vm_compute; auto). Qed.
Print Assumptions C90_tree_adjacency_list_refuted.
