(** C++ backend of graphs, adjacency matrix: properties C111 and C112. *)
From Coq Require Import Sorted Strings.String Strings.Ascii.
From Verif Require Import Base DsfModel GraphModel GraphSpec GraphProofs MstSpec CppModel CppGraphModel CppGraphSpec CppGraphProofs CppBfsProofs CppMatrixModel PrimProofs GraphDict CppMatrixProofs.
Import List.

(** ** C111: AdjacencyMatrix, Backend.CPP *)
Lemma mdg_fst names ops : fst (mdg_run names ops) = names.
Proof. unfold mdg_run. set (H := (names, @nil (string * string * option Z))). change names with (fst H). generalize H. clear. induction ops as [|o ops IH]; intros H; [reflexivity|]. cbn [fold_left]. rewrite IH. apply fst_mdg. Qed.
(** After any history of add_edge and remove_edge calls (a call that raises is caught) on distinct vertices, whatever their names. *)
Theorem C111_cpp_adjacency_matrix_partial : forall (names : list string) (ops : list gop), NoDup names ->
  let g := cm_run names ops in let G := mdg_run names ops in
  fst G = names /\ cm_nodes g = names /\ cm_num_vertices g = len names /\ NoDup (dg_edges G) /\ cm_num_edges g = len (snd G) /\
  (forall u v, is_edge G u v -> In u names /\ In v names) /\
  (forall u v, cm_is_adjacent g u v = true <-> is_edge G u v) /\
  (forall ord u, some_order ord -> In u names -> exists l, cm_neighbors ord g u = Ret l /\ NoDup l /\ forall v, In v l <-> is_edge G u v) /\
  (forall ord u, ~ In u names -> cm_neighbors ord g u = Raise KeyError).
Proof.
  intros names ops ND g G. destruct (m_run names ops ND) as [R OK]. fold g G in R, OK.
  assert (EV : fst G = names) by (unfold G; apply mdg_fst).
  split; [exact EV|]. split; [rewrite <- EV; apply (mr_n _ _ R)|]. split; [unfold cm_num_vertices; rewrite (mr_n _ _ R), EV; reflexivity|]. split; [apply (gk_e _ OK)|]. split; [apply m_count; assumption|].
  split; [intros u v X; rewrite <- EV; apply (gk_in _ OK); exact X|]. split; [intros u v; apply m_adj; assumption|]. split; [intros ord u HO X; apply m_nbrs; [assumption..|rewrite EV; exact X]|].
  intros ord u X. unfold cm_neighbors. rewrite (mrow_none g G u R) by (rewrite EV; exact X). reflexivity.
Qed.
Print Assumptions C111_cpp_adjacency_matrix_partial.
(** get_edge, when the names used have no underscore: the last cost given to the edge, as long as earlier results are kept alive *)
Theorem C111_cpp_matrix_get_edge_partial : forall (names : list string) (ops : list gop) (u v : string), NoDup names -> Forall (fun o => Forall plain (op_names o)) ops -> plain u ->
  let g := cm_run names ops in let G := mdg_run names ops in
  snd (cm_get_edge g true u v) = g /\
  match fst (cm_get_edge g true u v) with Ret (Some e) => exists c, e = (u, v, c) /\ has_cost G u v c | Ret None => forall c, ~ has_cost G u v c | _ => False end.
Proof.
  intros names ops u v ND HO Pu g G. destruct (m_run names ops ND) as [R OK]. fold g G in R, OK. assert (W := w_run names ops ND HO u v Pu). fold g G in W.
  unfold cm_get_edge. rewrite (mr_f _ _ R). cbn [mem existsb]. destruct (sdget (cm_w g) (ekey u v)) as [e|]; (split; [reflexivity|exact W]).
Qed.
Print Assumptions C111_cpp_matrix_get_edge_partial.
(** which calls raise what *)
Definition matrix_call_error (names : list string) (o : gop) : option exn :=
  match o with
  | GAddV _ | GRemV _ => Some AttributeError
  | GAddE u v c => if mem u names && mem v names then match c with Some z => if fits z then None else Some OverflowError | None => None end else Some ValueError
  | GRemE _ _ => None
  end.
Theorem C111_cpp_matrix_errors : forall (names : list string) (ops : list gop) (o : gop), NoDup names ->
  snd (cm_call (cm_run names ops) o) = match matrix_call_error names o with Some e => Raise e | None => Ret tt end.
Proof.
  intros names ops o ND. destruct (C111_cpp_adjacency_matrix_partial names ops ND) as (EV & _). destruct (m_run names ops ND) as [R OK]. set (g := cm_run names ops) in *. set (G := mdg_run names ops) in *.
  destruct o as [n|n|u v c|u v]; [reflexivity|reflexivity| |cbn [cm_call matrix_call_error]; unfold cm_remove_edge; destruct (sdget (cm_matrix g) u); reflexivity].
  cbn [cm_call matrix_call_error]. unfold cm_add_edge. destruct (mem_spec u names) as [Hu|Hu]; cbn [andb].
  - rewrite <- EV in Hu. destruct (mrow g G u R Hu) as (row & E). rewrite E. destruct (mem_spec v names) as [Hv|Hv]; rewrite <- EV in Hv.
    + destruct (mrow g G v R Hv) as (row2 & E2). rewrite E2. destruct c as [z|]; [|reflexivity]. rewrite fits_too_big. destruct (fits z); reflexivity.
    + rewrite (mrow_none g G v R Hv). reflexivity.
  - rewrite <- EV in Hu. rewrite (mrow_none g G u R Hu). reflexivity.
Qed.
Print Assumptions C111_cpp_matrix_errors.
Open Scope string_scope.
Definition stored_order : string -> list (string * bool) -> list (string * bool) := fun _ l => l.
Definition matrix_ops : list gop := [GAddE "a" "b" (Some 1); GAddE "b" "c" None; GAddE "a" "c" (Some 3); GAddE "c" "a" (Some 4); GRemE "a" "c"; GAddE "a" "b" (Some 7); GAddE "a" "z" (Some 1); GRemE "z" "a"].
Example C111_nonvacuous : NoDup ["a"; "b"; "c"] /\ Forall (fun o => Forall plain (op_names o)) matrix_ops /\
  mdg_run ["a"; "b"; "c"] matrix_ops = (["a"; "b"; "c"], [("a", "b", Some 7); ("b", "c", None); ("c", "a", Some 4)]).
Proof. split; [repeat constructor; cbn; intuition discriminate|]. split; [repeat constructor|reflexivity]. Qed.
(** get_edge hands out its own reference: once the caller has let go of the result, asking again (or removing the edge) is undefined *)
Theorem C111_cpp_get_edge_twice_refuted : let g := cm_run ["a"; "b"] [GAddE "a" "b" (Some 1)] in
  fst (cm_get_edge g false "a" "b") = Ret (Some ("a", "b", 1)) /\ fst (cm_get_edge (snd (cm_get_edge g false "a" "b")) false "a" "b") = Raise SystemError.
Proof. split; reflexivity. Qed.
Print Assumptions C111_cpp_get_edge_twice_refuted.
(** two edges whose names meet at an underscore share one record: get_edge answers with the other edge *)
Theorem C111_cpp_matrix_underscore_refuted : let g := cm_run ["a"; "b_c"; "a_b"; "c"] [GAddE "a" "b_c" (Some 1); GAddE "a_b" "c" (Some 2)] in
  fst (cm_get_edge g true "a" "b_c") = Ret (Some ("a_b", "c", 2)) /\ cm_num_edges g = 2.
Proof. split; reflexivity. Qed.
Print Assumptions C111_cpp_matrix_underscore_refuted.
(** a failing add_edge is not undone: a cost too big for a float raises, yet the edge is there *)
Theorem C111_cpp_matrix_overflow_refuted : let g := cm_new ["a"; "b"] in
  snd (cm_add_edge g "a" "b" (Some (2 ^ 1024))) = Raise OverflowError /\ cm_is_adjacent g "a" "b" = false /\ cm_is_adjacent (fst (cm_add_edge g "a" "b" (Some (2 ^ 1024)))) "a" "b" = true.
Proof. repeat split; vm_compute; reflexivity. Qed.
Print Assumptions C111_cpp_matrix_overflow_refuted.
(** an edge that has no cost is there but has no record *)
Theorem C111_cpp_matrix_costless_refuted : let g := cm_run ["a"; "b"] [GAddE "a" "b" None] in cm_is_adjacent g "a" "b" = true /\ fst (cm_get_edge g true "a" "b") = Ret None.
Proof. split; reflexivity. Qed.
Print Assumptions C111_cpp_matrix_costless_refuted.
(** two vertices with one name (the adjacency list refuses them) are counted as two *)
Theorem C111_cpp_matrix_duplicates_refuted : cm_num_vertices (cm_new ["a"; "a"]) = 2 /\ cm_map (cm_new ["a"; "a"]) = ["a"].
Proof. split; reflexivity. Qed.
Print Assumptions C111_cpp_matrix_duplicates_refuted.

(** ** C112: breadth_first_search of an AdjacencyMatrix, Backend.CPP *)
Theorem C112_cpp_matrix_bfs_partial : forall (names : list string) (ops : list gop) (ord : string -> list (string * bool) -> list (string * bool)) (s : string) (op : list (string * string) -> string -> string -> bool) (fuel : nat),
  NoDup names -> some_order ord -> In s names -> (length names < fuel)%nat -> let G := mdg_run names ops in
  exists calls, cm_bfs ord fuel (cm_run names ops) s op = Ret calls /\
  let D := s :: map snd calls in
  NoDup D /\ (forall v, In v D <-> reachable G s v) /\
  exists dist : string -> nat, (forall v, In v D -> distance G s v (dist v)) /\ StronglySorted (fun a b => (dist a <= dist b)%nat) D /\
    (forall c n, In (c, n) calls -> is_edge G c n /\ dist n = S (dist c)).
Proof.
  intros names ops ord s op fuel ND HO Hs Hf G. destruct (C111_cpp_adjacency_matrix_partial names ops ND) as (EV & _). destruct (m_run names ops ND) as [R OK]. fold G in EV, R, OK.
  exact (cm_bfs_main ord _ G s op fuel R OK HO ltac:(rewrite EV; exact Hs) ltac:(rewrite EV; exact Hf)).
Qed.
Print Assumptions C112_cpp_matrix_bfs_partial.
Theorem C112_cpp_matrix_bfs_unknown_source : forall (names : list string) (ops : list gop) ord s op fuel, NoDup names -> ~ In s names -> cm_bfs ord fuel (cm_run names ops) s op = Raise KeyError.
Proof.
  intros names ops ord s op fuel ND H. destruct (C111_cpp_adjacency_matrix_partial names ops ND) as (EV & _). destruct (m_run names ops ND) as [R OK]. unfold cm_bfs. rewrite (mr_map _ _ R), EV. destruct (mem_spec s names); [contradiction|reflexivity].
Qed.
Print Assumptions C112_cpp_matrix_bfs_unknown_source.
Example C112_nonvacuous : cm_bfs stored_order 6 (cm_run ["a"; "b"; "c"; "d"; "e"] [GAddE "a" "b" (Some 1); GAddE "a" "c" None; GAddE "b" "d" None; GAddE "c" "d" None; GAddE "d" "a" None; GAddE "a" "d" None; GRemE "a" "d"]) "a" (fun _ _ _ => false) =
  Ret [("a", "b"); ("a", "c"); ("b", "d")] /\ some_order stored_order.
Proof. split; [vm_compute; reflexivity|]. intros n l. reflexivity. Qed.
(** here too the operation cannot stop the search *)
Theorem C112_cpp_matrix_bfs_stop_refuted : exists op : list (string * string) -> string -> string -> bool,
  cm_bfs stored_order 9 (cm_run ["a"; "b"; "c"] [GAddE "a" "b" None; GAddE "b" "c" None]) "a" op = Ret [("a", "b"); ("b", "c")] /\
  GraphSpec.upto op [] [("a", "b"); ("b", "c")] = [("a", "b")].
Proof. exists (fun _ _ n => negb (String.eqb n "b")). split; vm_compute; reflexivity. Qed.
Print Assumptions C112_cpp_matrix_bfs_stop_refuted.
