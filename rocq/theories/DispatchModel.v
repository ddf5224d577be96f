(** Models of how the functions and classes that take the name of an algorithm or of an implementation choose what to run.
    A function is represented by the name of its def statement; what it computes is modelled elsewhere. *)
From Coq Require Import Strings.String.
From Verif Require Import Base NodeModel.
Import List.
Open Scope list_scope.

(** What a name of a module is bound to: the function of that def statement, which accepts from [lo] to [hi] positional arguments (None: any number from [lo]). *)
Record binding := Fn { b_fun : string; b_lo : nat; b_hi : option nat }.
Definition namespace := list (string * binding).

(** The names beginning with an underscore bound in pydatastructs/graphs/algorithms.py, with the lines that bind them (_comp is imported, 7-8).
    Attributes of every module, whose names begin with two underscores, are left out: no name looked up below can be one. *)
Definition graphs_algorithms : namespace := [
  ("_comp", Fn "_comp" 3 (Some 3%nat));
  ("_breadth_first_search_adjacency_list", Fn "_breadth_first_search_adjacency_list" 3 None);                                    (* 103-104 *)
  ("_breadth_first_search_adjacency_matrix", Fn "_breadth_first_search_adjacency_list" 3 None);                                  (* 125 *)
  ("_generate_layer", Fn "_generate_layer" 0 (Some 0%nat));                                                                        (* 191 *)
  ("_breadth_first_search_parallel_adjacency_list", Fn "_breadth_first_search_parallel_adjacency_list" 4 None);                  (* 207-208 *)
  ("_breadth_first_search_parallel_adjacency_matrix", Fn "_breadth_first_search_parallel_adjacency_list" 4 None);                (* 226 *)
  ("_generate_mst_object", Fn "_generate_mst_object" 1 (Some 1%nat));                                                              (* 228 *)
  ("_sort_edges", Fn "_sort_edges" 1 (Some 2%nat));                                                                                (* 232 *)
  ("_minimum_spanning_tree_kruskal_adjacency_list", Fn "_minimum_spanning_tree_kruskal_adjacency_list" 1 (Some 1%nat));            (* 242 *)
  ("_minimum_spanning_tree_kruskal_adjacency_matrix", Fn "_minimum_spanning_tree_kruskal_adjacency_list" 1 (Some 1%nat));          (* 255-256 *)
  ("_minimum_spanning_tree_prim_adjacency_list", Fn "_minimum_spanning_tree_prim_adjacency_list" 1 (Some 1%nat));                  (* 258 *)
  ("_minimum_spanning_tree_parallel_kruskal_adjacency_list", Fn "_minimum_spanning_tree_parallel_kruskal_adjacency_list" 2 (Some 2%nat));   (* 356 *)
  ("_minimum_spanning_tree_parallel_kruskal_adjacency_matrix", Fn "_minimum_spanning_tree_parallel_kruskal_adjacency_list" 2 (Some 2%nat)); (* 370-371 *)
  ("_find_min", Fn "_find_min" 3 (Some 3%nat));                                                                                    (* 373 *)
  ("_minimum_spanning_tree_parallel_prim_adjacency_list", Fn "_minimum_spanning_tree_parallel_prim_adjacency_list" 2 (Some 2%nat));         (* 379 *)
  ("_visit", Fn "_visit" 5 (Some 5%nat));                                                                                          (* 498 *)
  ("_assign", Fn "_assign" 5 (Some 5%nat));                                                                                        (* 513 *)
  ("_strongly_connected_components_kosaraju_adjacency_list", Fn "_strongly_connected_components_kosaraju_adjacency_list" 1 (Some 1%nat));   (* 526 *)
  ("_strongly_connected_components_kosaraju_adjacency_matrix", Fn "_strongly_connected_components_kosaraju_adjacency_list" 1 (Some 1%nat)); (* 543-544 *)
  ("_tarjan_dfs", Fn "_tarjan_dfs" 8 (Some 8%nat));                                                                                (* 546 *)
  ("_strongly_connected_components_tarjan_adjacency_list", Fn "_strongly_connected_components_tarjan_adjacency_list" 1 (Some 1%nat));       (* 571 *)
  ("_strongly_connected_components_tarjan_adjacency_matrix", Fn "_strongly_connected_components_tarjan_adjacency_list" 1 (Some 1%nat));     (* 589-590 *)
  ("_depth_first_search_adjacency_list", Fn "_depth_first_search_adjacency_list" 3 None);                                        (* 722-723 *)
  ("_depth_first_search_adjacency_matrix", Fn "_depth_first_search_adjacency_list" 3 None);                                      (* 744 *)
  ("_bellman_ford_adjacency_list", Fn "_bellman_ford_adjacency_list" 3 (Some 3%nat));                                              (* 821 *)
  ("_bellman_ford_adjacency_matrix", Fn "_bellman_ford_adjacency_list" 3 (Some 3%nat));                                            (* 855 *)
  ("_dijkstra_adjacency_list", Fn "_dijkstra_adjacency_list" 3 (Some 3%nat));                                                      (* 857 *)
  ("_dijkstra_adjacency_matrix", Fn "_dijkstra_adjacency_list" 3 (Some 3%nat));                                                    (* 884 *)
  ("_floyd_warshall_adjacency_list", Fn "_floyd_warshall_adjacency_list" 1 (Some 1%nat));                                          (* 946 *)
  ("_floyd_warshall_adjacency_matrix", Fn "_floyd_warshall_adjacency_list" 1 (Some 1%nat));                                        (* 975 *)
  ("_johnson_adjacency_list", Fn "_johnson_adjacency_list" 1 (Some 1%nat));                                                        (* 977 *)
  ("_kahn_adjacency_list", Fn "_kahn_adjacency_list" 1 (Some 1%nat));                                                              (* 1074 *)
  ("_kahn_adjacency_list_parallel", Fn "_kahn_adjacency_list_parallel" 2 (Some 2%nat));                                            (* 1155 *)
  ("_breadth_first_search_max_flow", Fn "_breadth_first_search_max_flow" 4 (Some 5%nat));                                          (* 1189 *)
  ("_max_flow_edmonds_karp_", Fn "_max_flow_edmonds_karp_" 3 (Some 3%nat));                                                        (* 1211 *)
  ("_depth_first_search_max_flow_dinic", Fn "_depth_first_search_max_flow_dinic" 6 (Some 6%nat));                                  (* 1229 *)
  ("_max_flow_dinic_", Fn "_max_flow_dinic_" 3 (Some 3%nat)) ]%string.                                                             (* 1253 *)
(** The same for pydatastructs/strings/algorithms.py; here too attributes of every module (__name__, ...) are left out: find(text, query, '_name__') asks
    for one of them, so this model speaks of names that do not begin with an underscore. *)
Definition strings_algorithms : namespace := [
  ("_knuth_morris_pratt", Fn "_knuth_morris_pratt" 2 (Some 2%nat));  (* 87 *)
  ("_kmp", Fn "_knuth_morris_pratt" 2 (Some 2%nat));                 (* 93 *)
  ("_build_kmp_table", Fn "_build_kmp_table" 1 (Some 1%nat));        (* 95 *)
  ("_do_match", Fn "_do_match" 3 (Some 3%nat));                      (* 115 *)
  ("_p_pow", Fn "_p_pow" 1 (Some 3%nat));                            (* 134 *)
  ("_hash_str", Fn "_hash_str" 1 (Some 3%nat));                      (* 141 *)
  ("_rabin_karp", Fn "_rabin_karp" 2 (Some 2%nat));                  (* 148 *)
  ("_boyer_moore", Fn "_boyer_moore" 2 (Some 2%nat));                (* 169 *)
  ("_z_vector", Fn "_z_vector" 2 (Some 2%nat));                      (* 204 *)
  ("_z_function", Fn "_z_function" 2 (Some 2%nat)) ]%string.         (* 237 *)

(** if not hasattr(algorithms, func): raise NotImplementedError; return getattr(algorithms, func)(the given number of positional arguments):
    the answer is the function that is run (graphs/algorithms.py 88-93, strings/algorithms.py 79-84); a call with a wrong number of arguments is a TypeError *)
Definition dispatch (ns : namespace) (func : ustr) (nargs : nat) : res (option string) :=
  match find (fun e => ustr_eqb (lit (fst e)) func) ns with
  | None => Raise NotImplementedError
  | Some (_, b) => if (b_lo b <=? nargs)%nat && match b_hi b with None => true | Some hi => (nargs <=? hi)%nat end then Ret (Some (b_fun b)) else Raise TypeError
  end.

(** graph._impl (graphs/adjacency_list.py 28, graphs/adjacency_matrix.py 31) *)
Inductive gimpl := AdjList | AdjMatrix.
Definition impl_name (i : gimpl) : ustr := match i with AdjList => lit "adjacency_list" | AdjMatrix => lit "adjacency_matrix" end.
(** the backend argument *)
Inductive backend := Python | Cpp.
(** raise_if_backend_is_not_python (utils/misc_util.py 35-38) *)
Definition python_only (b : backend) : res unit := match b with Python => Ret tt | Cpp => Raise ValueError end.

(** breadth_first_search (graphs/algorithms.py 84-101); the C++ functions are named by their Python names *)
Definition bfs_entry (b : backend) (i : gimpl) : res (option string) :=
  match b with
  | Python => dispatch graphs_algorithms (lit "_breadth_first_search_" ++ impl_name i) 3
  | Cpp => Ret (Some (match i with AdjList => "bfs_adjacency_list" | AdjMatrix => "bfs_adjacency_matrix" end)%string)
  end.
(** breadth_first_search_parallel (180-189) *)
Definition bfs_parallel_entry (b : backend) (i : gimpl) : res (option string) :=
  python_only b ;;; dispatch graphs_algorithms (lit "_breadth_first_search_parallel_" ++ impl_name i) 4.
(** depth_first_search (711-720) *)
Definition dfs_entry (b : backend) (i : gimpl) : res (option string) :=
  python_only b ;;; dispatch graphs_algorithms (lit "_depth_first_search_" ++ impl_name i) 3.
(** minimum_spanning_tree (341-354): with the C++ backend falling off the end returns None *)
Definition mst_entry (b : backend) (algorithm : ustr) (i : gimpl) : res (option string) :=
  match b with
  | Python => dispatch graphs_algorithms (lit "_minimum_spanning_tree_" ++ algorithm ++ lit "_" ++ impl_name i) 1
  | Cpp => match i with
           | AdjList => if ustr_eqb algorithm (lit "prim") then Ret (Some "minimum_spanning_tree_prim_adjacency_list"%string) else Ret None
           | AdjMatrix => Ret None
           end
  end.
(** minimum_spanning_tree_parallel (487-496) *)
Definition mst_parallel_entry (b : backend) (algorithm : ustr) (i : gimpl) : res (option string) :=
  python_only b ;;; dispatch graphs_algorithms (lit "_minimum_spanning_tree_parallel_" ++ algorithm ++ lit "_" ++ impl_name i) 2.
(** strongly_connected_components (643-652) *)
Definition scc_entry (b : backend) (algorithm : ustr) (i : gimpl) : res (option string) :=
  python_only b ;;; dispatch graphs_algorithms (lit "_strongly_connected_components_" ++ algorithm ++ lit "_" ++ impl_name i) 1.
(** shortest_paths (806-819): with the C++ backend falling off the end returns None *)
Definition shortest_entry (b : backend) (algorithm : ustr) (i : gimpl) : res (option string) :=
  match b with
  | Python => dispatch graphs_algorithms (lit "_" ++ algorithm ++ lit "_" ++ impl_name i) 3
  | Cpp => match i with
           | AdjList => if ustr_eqb algorithm (lit "dijkstra") then Ret (Some "shortest_paths_dijkstra_adjacency_list"%string) else Ret None
           | AdjMatrix => Ret None
           end
  end.
(** all_pair_shortest_paths (936-944) *)
Definition all_pairs_entry (b : backend) (algorithm : ustr) (i : gimpl) : res (option string) :=
  python_only b ;;; dispatch graphs_algorithms (lit "_" ++ algorithm ++ lit "_" ++ impl_name i) 1.
(** topological_sort (1064-1072) *)
Definition topo_entry (b : backend) (algorithm : ustr) (i : gimpl) : res (option string) :=
  python_only b ;;; dispatch graphs_algorithms (lit "_" ++ algorithm ++ lit "_" ++ impl_name i) 1.
(** topological_sort_parallel (1145-1153) *)
Definition topo_parallel_entry (b : backend) (algorithm : ustr) (i : gimpl) : res (option string) :=
  python_only b ;;; dispatch graphs_algorithms (lit "_" ++ algorithm ++ lit "_" ++ impl_name i ++ lit "_parallel") 2.
(** max_flow (1273-1283): the same for both implementations *)
Definition max_flow_entry (b : backend) (algorithm : ustr) (i : gimpl) : res (option string) :=
  python_only b ;;; dispatch graphs_algorithms (lit "_max_flow_" ++ algorithm ++ lit "_") 3.
(** find (strings/algorithms.py 75-84) *)
Definition find_entry (b : backend) (algorithm : ustr) : res (option string) :=
  python_only b ;;; dispatch strings_algorithms (lit "_" ++ algorithm) 2.

(** Classes that take the name of an implementation: the class of the object that is made. *)
(** Stack.__new__ (miscellaneous_data_structures/stack.py 56-72) *)
Definition stack_class (b : backend) (name : ustr) : res (option string) :=
  if ustr_eqb name (lit "array") then Ret (Some (match b with Cpp => "_stack.ArrayStack" | Python => "ArrayStack" end)%string)
  else if ustr_eqb name (lit "linked_list") then python_only b ;;; Ret (Some "LinkedListStack"%string) else Raise NotImplementedError.
(** Queue.__new__ (miscellaneous_data_structures/queue.py 57-72) *)
Definition queue_class (b : backend) (name : ustr) : res (option string) :=
  python_only b ;;;
  if ustr_eqb name (lit "array") then Ret (Some "ArrayQueue"%string) else if ustr_eqb name (lit "linked_list") then Ret (Some "LinkedListQueue"%string) else Raise NotImplementedError.
(** PriorityQueue.__new__ (queue.py 332-346) *)
Definition priority_queue_class (b : backend) (name : ustr) : res (option string) :=
  python_only b ;;;
  if ustr_eqb name (lit "linked_list") then Ret (Some "LinkedListPriorityQueue"%string)
  else if ustr_eqb name (lit "binary_heap") then Ret (Some "BinaryHeapPriorityQueue"%string)
  else if ustr_eqb name (lit "binomial_heap") then Ret (Some "BinomialHeapPriorityQueue"%string) else Raise NotImplementedError.
(** RangeQueryStatic.__new__ and RangeQueryDynamic.__new__ (miscellaneous_data_structures/algorithms.py 82-96, 241-256) on an array of [n] elements *)
Definition range_static_class (b : backend) (n : Z) (name : ustr) : res (option string) :=
  python_only b ;;;
  if n =? 0 then Raise ValueError
  else if ustr_eqb name (lit "array") then Ret (Some "RangeQueryStaticArray"%string)
  else if ustr_eqb name (lit "sparse_table") then Ret (Some "RangeQueryStaticSparseTable"%string) else Raise NotImplementedError.
Definition range_dynamic_class (b : backend) (n : Z) (name : ustr) : res (option string) :=
  python_only b ;;;
  if n =? 0 then Raise ValueError
  else if ustr_eqb name (lit "array") then Ret (Some "RangeQueryDynamicArray"%string)
  else if ustr_eqb name (lit "segment_tree") then Ret (Some "RangeQueryDynamicSegmentTree"%string) else Raise NotImplementedError.
