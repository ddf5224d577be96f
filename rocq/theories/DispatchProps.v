(** Property C143: functions and classes that take a name run what the name stands for, and refuse names that stand for nothing. *)
From Coq Require Import Strings.String.
From Verif Require Import Base NodeModel DispatchModel DispatchSpec DispatchProofs.
Import List.
Open Scope list_scope.

Local Ltac settle := intros i; destruct i; vm_compute; reflexivity.

(** C143. strongly_connected_components, minimum_spanning_tree_parallel, topological_sort_parallel and max_flow (Python backend): for every str, the documented names
    run their function, every other name raises NotImplementedError. *)
Theorem C143_documented_names_only :
  runs_table scc_table (scc_entry Python) /\ runs_table mst_parallel_table (mst_parallel_entry Python) /\
  runs_table topo_parallel_table (topo_parallel_entry Python) /\ runs_table max_flow_table (max_flow_entry Python).
Proof.
  repeat apply conj; apply tables_table.
  - apply (good_runs _ _ 1 _ (fun i => between "_strongly_connected_components_" (suffix_of i) graphs_algorithms)); [|settle].
    intros alg i. apply (entry_as "_strongly_connected_components_" 1). tauto.
  - apply (good_runs _ _ 2 _ (fun i => between "_minimum_spanning_tree_parallel_" (suffix_of i) graphs_algorithms)); [|settle].
    intros alg i. apply (entry_as "_minimum_spanning_tree_parallel_" 2). tauto.
  - apply (good_runs _ _ 2 _ (fun i => between "_" (suffix_of i ++ "_parallel") graphs_algorithms)); [|settle].
    intros alg i. unfold topo_parallel_entry. cbn [python_only bind].
    replace (lit "_" ++ impl_name i ++ lit "_parallel") with (lit (suffix_of i ++ "_parallel")%string) by (destruct i; reflexivity).
    apply dispatch_as. destruct i; vm_compute; reflexivity.
  - apply (good_runs _ _ 3 _ (fun i => between "_max_flow_" "_" graphs_algorithms)); [|settle].
    intros alg i. apply dispatch_as. vm_compute; reflexivity.
Qed.
Print Assumptions C143_documented_names_only.
(** The four others know more names: for every str and graph, exactly what is run. minimum_spanning_tree finds the functions of the parallel version (TypeError);
    shortest_paths, all_pair_shortest_paths and topological_sort find every function of the module for that implementation. *)
Theorem C143_names_exact :
  runs_tables mst_table [] [("parallel_kruskal", AdjList); ("parallel_kruskal", AdjMatrix); ("parallel_prim", AdjList)]%string (mst_entry Python) /\
  runs_tables shortest_table three_arguments (two_or_four ++ names (one_argument ++ all_pairs_table ++ topo_table)) (shortest_entry Python) /\
  runs_tables all_pairs_table (one_argument ++ topo_table) (two_or_four ++ names (three_arguments ++ shortest_table)) (all_pairs_entry Python) /\
  runs_tables topo_table (one_argument ++ all_pairs_table) (two_or_four ++ names (three_arguments ++ shortest_table)) (topo_entry Python).
Proof.
  repeat apply conj; apply split_tables.
  - apply (good_runs _ _ 1 _ (fun i => between "_minimum_spanning_tree_" (suffix_of i) graphs_algorithms)); [|settle].
    intros alg i. apply (entry_as "_minimum_spanning_tree_" 1). tauto.
  - apply (good_runs _ _ 3 _ (fun i => between "_" (suffix_of i) graphs_algorithms)); [|settle]. intros alg i. apply (entry_as "_" 3). tauto.
  - apply (good_runs _ _ 1 _ (fun i => between "_" (suffix_of i) graphs_algorithms)); [|settle]. intros alg i. apply (entry_as "_" 1). tauto.
  - apply (good_runs _ _ 1 _ (fun i => between "_" (suffix_of i) graphs_algorithms)); [|settle]. intros alg i. apply (entry_as "_" 1). tauto.
Qed.
Print Assumptions C143_names_exact.
(** find: exactly what is run for every str that does not begin with an underscore. *)
Theorem C143_find_names_exact : forall algorithm, (forall rest, algorithm <> lit "_" ++ rest) ->
  answers find_table find_extra find_broken algorithm AdjList (find_entry Python algorithm).
Proof.
  intros algorithm _. apply (split_tables find_table find_extra find_broken (fun a _ => find_entry Python a)).
  apply (good_runs _ _ 2 _ (fun _ => between "_" "" strings_algorithms)); [|settle].
  intros alg i. unfold find_entry. cbn [python_only bind]. replace (lit "_" ++ alg) with (lit "_" ++ alg ++ lit "") by (cbn [lit]; rewrite app_nil_r; reflexivity).
  apply dispatch_as. vm_compute; reflexivity.
Qed.
Print Assumptions C143_find_names_exact.
(** So these entry points do not keep to their documentation: all_pair_shortest_paths with 'kahn' runs the topological sort (which empties the graph, C88),
    topological_sort with 'johnson' the shortest paths, shortest_paths with 'depth_first_search' a traversal whose operation is the target's name,
    minimum_spanning_tree with 'parallel_prim' and shortest_paths with 'johnson' raise TypeError, find with 'z_vector' answers with a helper's list. *)
Theorem C143_undocumented_names_refuted :
  ~ runs_table mst_table (mst_entry Python) /\ ~ runs_table shortest_table (shortest_entry Python) /\
  ~ runs_table all_pairs_table (all_pairs_entry Python) /\ ~ runs_table topo_table (topo_entry Python) /\
  ~ runs_table find_table (fun a _ => find_entry Python a) /\
  all_pairs_entry Python (lit "kahn") AdjList = Ret (Some "_kahn_adjacency_list"%string) /\
  topo_entry Python (lit "johnson") AdjList = Ret (Some "_johnson_adjacency_list"%string) /\
  shortest_entry Python (lit "depth_first_search") AdjList = Ret (Some "_depth_first_search_adjacency_list"%string) /\
  find_entry Python (lit "z_vector") = Ret (Some "_z_vector"%string) /\
  mst_entry Python (lit "parallel_prim") AdjList = Raise TypeError /\ shortest_entry Python (lit "johnson") AdjList = Raise TypeError.
Proof.
  assert (W : forall t entry name, (forall f, entry (lit name) AdjList = Ret (Some f) -> existsb (fun x => String.eqb (fst (fst x)) name) t = false) ->
                          entry (lit name) AdjList <> Raise NotImplementedError -> ~ runs_table t entry).
  { intros t entry name H N R. destruct (R (lit name) AdjList) as [(n & f & E & Hin & Ef)|[_ E]]; [|contradiction].
    apply lit_inj in E. subst n. specialize (H f Ef). apply not_true_iff_false in H. apply H. apply existsb_exists. exists (name, AdjList, f). split; [exact Hin|].
    apply String.eqb_refl. }
  repeat apply conj; try (vm_compute; reflexivity).
  - apply (W _ _ "parallel_prim"%string); [intros f _; vm_compute; reflexivity|vm_compute; discriminate].
  - apply (W _ _ "johnson"%string); [intros f _; vm_compute; reflexivity|vm_compute; discriminate].
  - apply (W _ _ "kahn"%string); [intros f _; vm_compute; reflexivity|vm_compute; discriminate].
  - apply (W _ _ "johnson"%string); [intros f _; vm_compute; reflexivity|vm_compute; discriminate].
  - apply (W _ _ "z_vector"%string); [intros f _; vm_compute; reflexivity|vm_compute; discriminate].
Qed.
Print Assumptions C143_undocumented_names_refuted.
(** The C++ backend: breadth_first_search serves both implementations; minimum_spanning_tree and shortest_paths know one name and answer None, without an exception,
    for every other name and for matrices; all other entry points raise ValueError whatever the name. *)
Theorem C143_cpp_backend_names : forall algorithm i,
  bfs_entry Cpp i = Ret (Some match i with AdjList => "bfs_adjacency_list" | AdjMatrix => "bfs_adjacency_matrix" end%string) /\
  ((algorithm = lit "prim" /\ i = AdjList /\ mst_entry Cpp algorithm i = Ret (Some "minimum_spanning_tree_prim_adjacency_list"%string)) \/
   (~ (algorithm = lit "prim" /\ i = AdjList) /\ mst_entry Cpp algorithm i = Ret None)) /\
  ((algorithm = lit "dijkstra" /\ i = AdjList /\ shortest_entry Cpp algorithm i = Ret (Some "shortest_paths_dijkstra_adjacency_list"%string)) \/
   (~ (algorithm = lit "dijkstra" /\ i = AdjList) /\ shortest_entry Cpp algorithm i = Ret None)) /\
  (forall e, In e [mst_parallel_entry; scc_entry; all_pairs_entry; topo_entry; topo_parallel_entry; max_flow_entry] -> e Cpp algorithm i = Raise ValueError) /\
  bfs_parallel_entry Cpp i = Raise ValueError /\ dfs_entry Cpp i = Raise ValueError /\ find_entry Cpp algorithm = Raise ValueError.
Proof.
  intros alg i. repeat apply conj; try reflexivity.
  - destruct (list_eq_dec Z.eq_dec alg (lit "prim")) as [->|N]; destruct i.
    + left. repeat apply conj; reflexivity.
    + right. split; [intros []; discriminate|reflexivity].
    + right. split; [tauto|]. unfold mst_entry. destruct (ustr_eqb alg (lit "prim")) eqn:E; [apply ueqb_spec in E; contradiction|reflexivity].
    + right. split; [tauto|reflexivity].
  - destruct (list_eq_dec Z.eq_dec alg (lit "dijkstra")) as [->|N]; destruct i.
    + left. repeat apply conj; reflexivity.
    + right. split; [intros []; discriminate|reflexivity].
    + right. split; [tauto|]. unfold shortest_entry. destruct (ustr_eqb alg (lit "dijkstra")) eqn:E; [apply ueqb_spec in E; contradiction|reflexivity].
    + right. split; [tauto|reflexivity].
  - intros e H. cbn in H. repeat destruct H as [<-|H]; [reflexivity..|contradiction].
Qed.
Print Assumptions C143_cpp_backend_names.
(** An unknown name is not refused there. *)
Theorem C143_cpp_unknown_names_refuted : ~ runs_table [("prim", AdjList, "minimum_spanning_tree_prim_adjacency_list")]%string (mst_entry Cpp) /\
  ~ runs_table [("dijkstra", AdjList, "shortest_paths_dijkstra_adjacency_list")]%string (shortest_entry Cpp).
Proof.
  split; intros H; destruct (H (lit "kruskal") AdjList) as [(n & f & E & Hin & Ef)|[_ E]]; try (vm_compute in Ef; discriminate); vm_compute in E; discriminate.
Qed.
Print Assumptions C143_cpp_unknown_names_refuted.
(** Traversals without a name are there for both implementations of graphs. *)
Theorem C143_traversals : forall i, bfs_entry Python i = Ret (Some "_breadth_first_search_adjacency_list"%string) /\
  bfs_parallel_entry Python i = Ret (Some "_breadth_first_search_parallel_adjacency_list"%string) /\ dfs_entry Python i = Ret (Some "_depth_first_search_adjacency_list"%string).
Proof. intros i. destruct i; repeat apply conj; vm_compute; reflexivity. Qed.
Print Assumptions C143_traversals.
(** Classes: Stack, Queue, PriorityQueue and the range queries make an object of the class of the documented name and raise NotImplementedError for all others. *)
Theorem C143_class_names : 
  runs_table (both "array" "ArrayStack" ++ both "linked_list" "LinkedListStack") (fun a _ => stack_class Python a) /\
  runs_table (both "array" "ArrayQueue" ++ both "linked_list" "LinkedListQueue") (fun a _ => queue_class Python a) /\
  runs_table (both "linked_list" "LinkedListPriorityQueue" ++ both "binary_heap" "BinaryHeapPriorityQueue" ++ both "binomial_heap" "BinomialHeapPriorityQueue")
             (fun a _ => priority_queue_class Python a) /\
  (forall n, n <> 0 -> runs_table (both "array" "RangeQueryStaticArray" ++ both "sparse_table" "RangeQueryStaticSparseTable") (fun a _ => range_static_class Python n a)) /\
  (forall n, n <> 0 -> runs_table (both "array" "RangeQueryDynamicArray" ++ both "segment_tree" "RangeQueryDynamicSegmentTree") (fun a _ => range_dynamic_class Python n a)).
Proof.
  assert (P : forall (c : ustr -> res (option string)) (l : list (string * string)),
            (forall a, c a = match find (fun e => ustr_eqb a (lit (fst e))) l with Some (_, f) => Ret (Some f) | None => Raise NotImplementedError end) ->
            runs_table (concat (map (fun e => both (fst e) (snd e)) l)) (fun a _ => c a)).
  { intros c l H a i. rewrite H. destruct (find _ l) as [[n f]|] eqn:F.
    - apply find_some in F as [Hin E]. cbn [fst] in E. apply ueqb_spec in E. left. exists n, f. repeat apply conj; [exact E| |reflexivity].
      apply in_concat. exists (both n f). split; [|destruct i; cbn; auto]. apply in_map_iff. exists (n, f). auto.
    - right. split; [|reflexivity]. intros n f Hin ->. apply in_concat in Hin as (x & Hx & Hin). apply in_map_iff in Hx as ([n' f'] & <- & Hl).
      pose proof (find_none _ _ F _ Hl) as N. cbn [fst snd] in N, Hin. assert (n = n') as -> by (destruct Hin as [[= <- _ _]|[[= <- _ _]|[]]]; reflexivity).
      apply not_true_iff_false in N. apply N. apply ueqb_spec. reflexivity. }
  repeat apply conj.
  - apply (P (stack_class Python) [("array", "ArrayStack"); ("linked_list", "LinkedListStack")]%string). intros a. unfold stack_class. cbn [find fst].
    destruct (ustr_eqb a _); [reflexivity|]. destruct (ustr_eqb a _); reflexivity.
  - apply (P (queue_class Python) [("array", "ArrayQueue"); ("linked_list", "LinkedListQueue")]%string). intros a. unfold queue_class. cbn [find fst python_only bind].
    destruct (ustr_eqb a _); [reflexivity|]. destruct (ustr_eqb a _); reflexivity.
  - apply (P (priority_queue_class Python) [("linked_list", "LinkedListPriorityQueue"); ("binary_heap", "BinaryHeapPriorityQueue"); ("binomial_heap", "BinomialHeapPriorityQueue")]%string).
    intros a. unfold priority_queue_class. cbn [find fst python_only bind]. destruct (ustr_eqb a _); [reflexivity|]. destruct (ustr_eqb a _); [reflexivity|].
    destruct (ustr_eqb a _); reflexivity.
  - intros n Hn. apply (P (range_static_class Python n) [("array", "RangeQueryStaticArray"); ("sparse_table", "RangeQueryStaticSparseTable")]%string). intros a.
    unfold range_static_class. cbn [find fst python_only bind]. destruct (Z.eqb_spec n 0); [contradiction|]. destruct (ustr_eqb a _); [reflexivity|]. destruct (ustr_eqb a _); reflexivity.
  - intros n Hn. apply (P (range_dynamic_class Python n) [("array", "RangeQueryDynamicArray"); ("segment_tree", "RangeQueryDynamicSegmentTree")]%string). intros a.
    unfold range_dynamic_class. cbn [find fst python_only bind]. destruct (Z.eqb_spec n 0); [contradiction|]. destruct (ustr_eqb a _); [reflexivity|]. destruct (ustr_eqb a _); reflexivity.
Qed.
Print Assumptions C143_class_names.
(** Empty arrays are refused first, whatever the name; other backends where there is only Python. *)
Theorem C143_class_errors : forall name n,
  range_static_class Python 0 name = Raise ValueError /\ range_dynamic_class Python 0 name = Raise ValueError /\
  queue_class Cpp name = Raise ValueError /\ priority_queue_class Cpp name = Raise ValueError /\ range_static_class Cpp n name = Raise ValueError /\
  range_dynamic_class Cpp n name = Raise ValueError /\ stack_class Cpp (lit "linked_list") = Raise ValueError /\
  stack_class Cpp (lit "array") = Ret (Some "_stack.ArrayStack"%string).
Proof. intros. repeat apply conj; reflexivity. Qed.
Print Assumptions C143_class_errors.
Example C143_case : scc_entry Python (lit "tarjan") AdjMatrix = Ret (Some "_strongly_connected_components_tarjan_adjacency_list"%string) /\
  scc_entry Python (lit "Tarjan") AdjMatrix = Raise NotImplementedError /\ mst_parallel_entry Python (lit "prim") AdjMatrix = Raise NotImplementedError /\
  topo_parallel_entry Python (lit "kahn") AdjList = Ret (Some "_kahn_adjacency_list_parallel"%string) /\ max_flow_entry Python (lit "dinic") AdjMatrix = Ret (Some "_max_flow_dinic_"%string) /\
  find_entry Python (lit "kmp") = Ret (Some "_knuth_morris_pratt"%string) /\ (forall rest, lit "kmp" <> lit "_" ++ rest) /\ find_entry Python (lit "") = Raise NotImplementedError.
Proof. repeat apply conj; try (vm_compute; reflexivity). intros rest. vm_compute. discriminate. Qed.
