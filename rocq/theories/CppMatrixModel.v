(** Model of the C++ AdjacencyMatrixGraph (graphs/_backend/cpp/AdjacencyMatrix.hpp) and of breadth_first_search on it (Algorithms.hpp 84-158).
    As in CppGraphModel: a node object is known by its name, hash maps are association lists whose iteration order is a parameter, costs are
    ints (converted to double: exact up to 2^53) or None. *)
From Coq Require Import Strings.String Strings.Ascii.
From Verif Require Import Base DsfModel GraphModel CppModel CppGraphModel.
Import List.

(** the members (AdjacencyMatrix.hpp 15-22). [cm_freed]: the keys of edge_weights whose GraphEdge has been freed while the map still points
    to it (see [cm_get_edge]) *)
Record cmg := mkcmg { cm_nodes : list string; cm_matrix : list (string * list (string * bool)); cm_map : list string; cm_w : list (string * (string * string * Z)); cm_freed : list string }.

(** AdjacencyMatrixGraph_new (44-93) *)
Definition cm_new (names : list string) : cmg :=
  fold_left (fun g n => mkcmg (cm_nodes g ++ [n]) (sdset (cm_matrix g) n []) (if mem n (cm_map g) then cm_map g else cm_map g ++ [n]) (cm_w g) (cm_freed g)) names (mkcmg [] [] [] [] []).
(** PyFloat_AsDouble raises OverflowError for ints that round to 2^1024 *)
Definition too_big (z : Z) : bool := 2 ^ 1024 - 2 ^ 970 <=? Z.abs z.
Definition drop_key (k : string) (l : list string) : list string := filter (fun x => negb (String.eqb k x)) l.
(** add_edge (95-132): the graph after the call, and its outcome *)
Definition cm_add_edge (g : cmg) (src dst : string) (cost : option Z) : cmg * res unit :=
  match sdget (cm_matrix g) src, sdget (cm_matrix g) dst with
  | Some row, Some _ =>
    let g1 := mkcmg (cm_nodes g) (sdset (cm_matrix g) src (sdset row dst true)) (cm_map g) (cm_w g) (cm_freed g) in
    match cost with
    | None => (g1, Ret tt)
    | Some z => if too_big z then (g1, Raise OverflowError)
                else (mkcmg (cm_nodes g1) (cm_matrix g1) (cm_map g1) (sdset (cm_w g1) (ekey src dst) (src, dst, z)) (drop_key (ekey src dst) (cm_freed g1)), Ret tt)
    end
  | _, _ => (g, Raise ValueError)
  end.
(** remove_edge (134-150) *)
Definition cm_remove_edge (g : cmg) (src dst : string) : cmg * res unit :=
  match sdget (cm_matrix g) src with
  | Some row => (mkcmg (cm_nodes g) (sdset (cm_matrix g) src (sdset row dst false)) (cm_map g) (dpop (cm_w g) (ekey src dst)) (drop_key (ekey src dst) (cm_freed g)), Ret tt)
  | None => (g, Ret tt)
  end.
(** neighbors (152-175); node_map[name] of a name that is not there is a nullptr *)
Definition cm_neighbors (ord : string -> list (string * bool) -> list (string * bool)) (g : cmg) (node : string) : res (list string) :=
  match sdget (cm_matrix g) node with
  | None => Raise KeyError
  | Some row => forM (ord node row) (fun '(n, b) l => if b then (if mem n (cm_map g) then Ret (l ++ [n]) else Raise SystemError) else Ret l) []
  end.
(** num_vertices (178-181), num_edges (183-193) *)
Definition cm_num_vertices (g : cmg) : Z := len (cm_nodes g).
Definition cm_num_edges (g : cmg) : Z := fold_left (fun count row => fold_left (fun count (entry : string * bool) => if snd entry then count + 1 else count) (snd row) count) (cm_matrix g) 0.
(** get_edge (195-207). It returns the pointer without taking a reference: when the caller lets go of the result ([keep] = false), the edge is
    freed although edge_weights still points to it, and looking it up again is undefined. *)
Definition cm_get_edge (g : cmg) (keep : bool) (src dst : string) : res (option (string * string * Z)) * cmg :=
  match sdget (cm_w g) (ekey src dst) with
  | None => (Ret None, g)
  | Some e => if mem (ekey src dst) (cm_freed g) then (Raise SystemError, g)
              else (Ret (Some e), if keep then g else mkcmg (cm_nodes g) (cm_matrix g) (cm_map g) (cm_w g) (ekey src dst :: cm_freed g))
  end.
(** is_adjacent (209-226) *)
Definition cm_is_adjacent (g : cmg) (src dst : string) : bool :=
  match sdget (cm_matrix g) src with
  | None => false
  | Some row => match sdget row dst with Some b => b | None => false end
  end.
(** histories of calls; the matrix has no methods to add or remove vertices *)
Definition cm_call (g : cmg) (o : gop) : cmg * res unit :=
  match o with
  | GAddE u v c => cm_add_edge g u v c
  | GRemE u v => cm_remove_edge g u v
  | GAddV _ | GRemV _ => (g, Raise AttributeError)
  end.
Definition cm_run (names : list string) (ops : list gop) : cmg := fold_left (fun g o => fst (cm_call g o)) ops (cm_new names).

(** ** breadth_first_search_adjacency_matrix (Algorithms.hpp 84-158) *)
Definition cm_bfs (ord : string -> list (string * bool) -> list (string * bool)) (fuel : nat) (g : cmg) (source_name : string) (op : list (string * string) -> string -> string -> bool)
  : res (list (string * string)) :=
  if negb (mem source_name (cm_map g)) then Raise KeyError
  else
    while_loop fuel (fun '(q, visited, calls) =>
      match q with
      | [] => Ret (Break calls)
      | node :: q =>
        let neighbors := match sdget (cm_matrix g) node with Some row => row | None => [] end in
        s <- forM (ord node neighbors) (fun '(adj_name, connected) '(q, visited, calls) =>
          if negb connected || mem adj_name visited then Ret (q, visited, calls)
          else if negb (mem adj_name (cm_map g)) then Ret (q, visited, calls)
          else let _ := op calls node adj_name in Ret (q ++ [adj_name], adj_name :: visited, calls ++ [(node, adj_name)])) (q, visited, calls) ;;
        Ret (Next s)
      end) ([source_name], [source_name], []).
