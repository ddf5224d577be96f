(** Theorems about topological_sort_parallel (C91, and the parallel half of C88). *)
From Coq Require Import Strings.String.
From Verif Require Import Base DsfModel GraphModel GraphSpec GraphDict GraphProofs KahnProofs KahnParModel KahnParSpec KahnParProofs.
Import List.

(** C91: whatever the interleaving of the jobs in each round, the result is a linear extension exactly when there is one *)
Theorem C91_topological_sort_parallel : forall (names : list string) (ops : list gop), NoDup names -> Forall ordinary names -> Forall (fun o => Forall ordinary (op_names o)) ops ->
  let G := dg_run names ops in
  exists g, al_run names ops = Ret g /\ forall sched : nat -> nat -> nat,
    (acyclic G -> exists L g', kahn_parallel sched g = Ret (L, g') /\ linear_extension G L) /\ (~ acyclic G -> kahn_parallel sched g = Raise ValueError).
Proof.
  intros names ops H1 H2 H3 G. destruct (al_run_ok names ops H1 H2 H3) as (g & E & R & OK). exists g. split; [exact E|]. intros sched. destruct (kahn_par_ok g G sched R OK) as [K1 K2]. split; [|exact K2]. intros A. destruct (K1 A) as (g' & X & Y & _). eauto.
Qed.
Print Assumptions C91_topological_sort_parallel.
(** ... and the order is the same for every interleaving: the layers of the graph, each in the order of the vertices *)
Theorem C91_same_order_for_every_schedule : forall (names : list string) (ops : list gop), NoDup names -> Forall ordinary names -> Forall (fun o => Forall ordinary (op_names o)) ops ->
  forall g sched L g', al_run names ops = Ret g -> kahn_parallel sched g = Ret (L, g') ->
  let '(V, E) := dg_run names ops in L = peel (map fst E) (length V) V.
Proof.
  intros names ops H1 H2 H3 g sched L g' E K. destruct (al_run_ok names ops H1 H2 H3) as (g0 & E0 & R & OK). rewrite E in E0. injection E0 as <-. destruct (kahn_par_ok g _ sched R OK) as [K1 K2].
  assert (A : acyclic (dg_run names ops)). { intros v n Hc. rewrite K2 in K; [discriminate|]. intros A. apply (A v n Hc). }
  destruct (K1 A) as (g1 & X & _). rewrite K in X. injection X as -> _. destruct (dg_run names ops). reflexivity.
Qed.
Print Assumptions C91_same_order_for_every_schedule.
Example C91_case :
  (exists g, al_run ["a"; "b"; "c"; "d"; "e"]%string [GAddE "d" "b" None; GAddE "d" "c" None; GAddE "b" "a" None; GAddE "e" "a" None; GAddE "e" "c" None; GAddE "c" "a" None]%string = Ret g /\
    (exists g', kahn_parallel (fun _ t => t) g = Ret (["d"; "e"; "b"; "c"; "a"]%string, g')) /\ (exists g', kahn_parallel (fun r t => r + 7 * t * t + 3)%nat g = Ret (["d"; "e"; "b"; "c"; "a"]%string, g'))) /\
  (exists g, al_run ["a"; "b"; "c"]%string [GAddE "a" "b" None; GAddE "b" "c" None; GAddE "c" "b" None]%string = Ret g /\ kahn_parallel (fun _ t => t) g = Raise ValueError).
Proof. split; [eexists; split; [vm_compute; reflexivity|]; split; eexists; vm_compute; reflexivity|eexists; split; vm_compute; reflexivity]. Qed.

(** C88, parallel half: the caller's graph afterwards has lost its vertices too *)
Theorem C88_topological_sort_parallel_empties_graph : forall (names : list string) (ops : list gop), NoDup names -> Forall ordinary names -> Forall (fun o => Forall ordinary (op_names o)) ops ->
  forall g sched L g', al_run names ops = Ret g -> kahn_parallel sched g = Ret (L, g') -> al_vertices g' = [] /\ al_num_edges g' = Ret 0.
Proof.
  intros names ops H1 H2 H3 g sched L g' E K. destruct (al_run_ok names ops H1 H2 H3) as (g0 & E0 & R & OK). rewrite E in E0. injection E0 as <-. destruct (kahn_par_ok g _ sched R OK) as [K1 K2].
  assert (A : acyclic (dg_run names ops)). { intros v n Hc. rewrite K2 in K; [discriminate|]. intros A. apply (A v n Hc). }
  destruct (K1 A) as (g1 & X & _ & R1). rewrite K in X. injection X as -> <-. assert (V := rep_v _ _ R1). cbn [fst] in V. split; [exact V|]. unfold al_num_edges. rewrite V. reflexivity.
Qed.
Print Assumptions C88_topological_sort_parallel_empties_graph.
