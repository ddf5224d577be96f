(** What the documentation says of the functions that take the name of an algorithm: a table of supported names, everything else is refused. *)
From Coq Require Import Strings.String.
From Verif Require Import Base NodeModel DispatchModel.
Import List.
Open Scope list_scope.

(** a table: name, implementation of graphs, the function that computes it *)
Definition table := list (string * gimpl * string).
(** [entry] runs, for every name, the function of the table, and refuses every name (and implementation) that is not in the table *)
Definition runs_table (t : table) (entry : ustr -> gimpl -> res (option string)) : Prop := forall algorithm i,
  (exists name f, algorithm = lit name /\ In (name, i, f) t /\ entry algorithm i = Ret (Some f)) \/
  ((forall name f, In (name, i, f) t -> algorithm <> lit name) /\ entry algorithm i = Raise NotImplementedError).
(** One answer, where further names are known: those of [extra] run that function (which the documentation of this entry point does not know), those of [broken]
    are a TypeError (a function with another number of arguments), all others are refused. *)
Definition answers (t extra : table) (broken : list (string * gimpl)) (algorithm : ustr) (i : gimpl) (r : res (option string)) : Prop :=
  (exists name f, algorithm = lit name /\ In (name, i, f) (t ++ extra) /\ r = Ret (Some f)) \/
  (exists name, algorithm = lit name /\ In (name, i) broken /\ r = Raise TypeError) \/
  ((forall name f, In (name, i, f) (t ++ extra) -> algorithm <> lit name) /\ (forall name, In (name, i) broken -> algorithm <> lit name) /\
   r = Raise NotImplementedError).
Definition runs_tables (t extra : table) (broken : list (string * gimpl)) (entry : ustr -> gimpl -> res (option string)) : Prop :=
  forall algorithm i, answers t extra broken algorithm i (entry algorithm i).

Open Scope string_scope.
Open Scope list_scope.
(** both implementations of graphs *)
Definition both (name f : string) : table := [(name, AdjList, f); (name, AdjMatrix, f)].
(** The documented names (graphs/algorithms.py 293-299, 438-444, 604-608, 757-762, 897-902, 1033-1036, 1111-1114, 1273) with the implementations of graphs for which
    the library has them. *)
Definition mst_table : table := both "kruskal" "_minimum_spanning_tree_kruskal_adjacency_list" ++ [("prim", AdjList, "_minimum_spanning_tree_prim_adjacency_list")].
Definition mst_parallel_table : table :=
  both "kruskal" "_minimum_spanning_tree_parallel_kruskal_adjacency_list" ++ [("prim", AdjList, "_minimum_spanning_tree_parallel_prim_adjacency_list")].
Definition scc_table : table := both "kosaraju" "_strongly_connected_components_kosaraju_adjacency_list" ++ both "tarjan" "_strongly_connected_components_tarjan_adjacency_list".
Definition shortest_table : table := both "bellman_ford" "_bellman_ford_adjacency_list" ++ both "dijkstra" "_dijkstra_adjacency_list".
Definition all_pairs_table : table := both "floyd_warshall" "_floyd_warshall_adjacency_list" ++ [("johnson", AdjList, "_johnson_adjacency_list")].
Definition topo_table : table := [("kahn", AdjList, "_kahn_adjacency_list")].
Definition topo_parallel_table : table := [("kahn", AdjList, "_kahn_adjacency_list_parallel")].
Definition max_flow_table : table := both "edmonds_karp" "_max_flow_edmonds_karp_" ++ both "dinic" "_max_flow_dinic_".

(** What the functions whose names are looked up without a prefix of their own run besides: other functions of the module with a fitting number of arguments. *)
Definition one_argument : table :=
  both "minimum_spanning_tree_kruskal" "_minimum_spanning_tree_kruskal_adjacency_list" ++
  [("minimum_spanning_tree_prim", AdjList, "_minimum_spanning_tree_prim_adjacency_list")] ++
  both "strongly_connected_components_kosaraju" "_strongly_connected_components_kosaraju_adjacency_list" ++
  both "strongly_connected_components_tarjan" "_strongly_connected_components_tarjan_adjacency_list".
Definition three_arguments : table := both "breadth_first_search" "_breadth_first_search_adjacency_list" ++ both "depth_first_search" "_depth_first_search_adjacency_list".
(** names of functions that take two arguments, or four and more: a TypeError for the functions that look them up with one or three *)
Definition two_or_four : list (string * gimpl) :=
  [("breadth_first_search_parallel", AdjList); ("breadth_first_search_parallel", AdjMatrix);
   ("minimum_spanning_tree_parallel_kruskal", AdjList); ("minimum_spanning_tree_parallel_kruskal", AdjMatrix); ("minimum_spanning_tree_parallel_prim", AdjList)].
Definition names (t : table) : list (string * gimpl) := map fst t.

(** find: the names in the documentation (strings/algorithms.py 29-35), in the same form (the implementation of graphs plays no role) *)
Definition find_table : table :=
  both "kmp" "_knuth_morris_pratt" ++ both "rabin_karp" "_rabin_karp" ++ both "boyer_moore" "_boyer_moore" ++ both "z_function" "_z_function".
(** what it runs besides: the alias, and helpers that take two arguments *)
Definition find_extra : table :=
  both "knuth_morris_pratt" "_knuth_morris_pratt" ++ both "z_vector" "_z_vector" ++ both "p_pow" "_p_pow" ++ both "hash_str" "_hash_str".
Definition find_broken : list (string * gimpl) := [("build_kmp_table", AdjList); ("build_kmp_table", AdjMatrix); ("do_match", AdjList); ("do_match", AdjMatrix)].
