(** Which vertex names a graph can carry (C89): no reference to the model. *)
From Coq Require Import Strings.String.
From Verif Require Import Base.
Import List.
(** attributes of every node object: utils/misc_util.py 366-436 *)
Definition node_attributes : list string := ["name"; "data"; "adjacent"; "_impl"; "methods"; "add_adjacent_node"; "remove_adjacent_node"]%string.
(** attributes of every adjacency list: graphs/graph.py, graphs/adjacency_list.py *)
Definition graph_attributes : list string := ["vertices"; "edge_weights"; "_impl"; "methods"; "is_adjacent"; "num_vertices"; "num_edges"; "neighbors"; "add_vertex"; "remove_vertex"; "add_edge"; "get_edge"; "remove_edge"]%string.
Definition usable (s : string) : Prop := ~ In s node_attributes /\ ~ In s graph_attributes.
