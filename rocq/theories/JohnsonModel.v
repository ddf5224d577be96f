(** Model of _johnson_adjacency_list (pydatastructs/graphs/algorithms.py 977-1019) on top of bellman_ford (PathModel), dijkstra (DijkstraModel)
    and the graph operations. The algorithm changes the graph it is given, so the model returns the graph together with the outcome.
    Distances are [option Z] with None for float('inf'). *)
From Coq Require Import Strings.String Strings.Ascii.
From Verif Require Import Base DsfModel GraphModel PathModel BinomialModel DijkstraModel.
Import List.

(** run a step; if it raises, the graph stays as it was before the step (an exception in the middle of one of the loops below would leave
    a part of that loop's changes; that is simplified away) *)
Definition jstep {A B} (g : al) (m : res A) (k : A -> al * res B) : al * res B :=
  match m with Ret a => k a | Raise e => (g, Raise e) | OutOfFuel => (g, OutOfFuel) end.
(** x - y with inf (y is never inf: proved) *)
Definition osub (x y : option Z) : option Z := match x, y with Some a, Some b => Some (a - b) | _, _ => None end.
Definition jq : string := "__q__"%string.
(** new_vertex and its edges (978-983) *)
Definition j_grow (g : al) : res al :=
  let g := al_add_vertex g jq in
  forM (al_vertices g) (fun vertex g => if negb (String.eqb vertex jq) then al_add_edge g jq vertex (Some 0) else Ret g) g.
(** edges_to_remove (987-991) and their removal with that of the new vertex (993-995) *)
Definition j_shrink (g : al) : res al :=
  let edges_to_remove := flat_map (fun '(_, edge_node) => if String.eqb (e_src edge_node) jq then [(e_src edge_node, e_tgt edge_node)] else []) (al_weights g) in
  g <- forM edges_to_remove (fun '(u, v) g => al_remove_edge g u v) g ;;
  al_remove_vertex g jq.
(** the new costs (997-1000). A vertex is never at distance inf here (proved); the model raises if it were *)
Definition j_cost (distances : list (string * option Z)) (e : edge) : res edge :=
  du <- dgetE distances (e_src e) ;; dv <- dgetE distances (e_tgt e) ;;
  match du, dv with Some a, Some b => Ret (e_src e, e_tgt e, e_val e + (a - b)) | _, _ => Raise TypeError end.
Definition j_reweight (g : al) (distances : list (string * option Z)) : res al :=
  W <- forM (al_weights g) (fun '(k, e) acc => e <- j_cost distances e ;; Ret (acc ++ [(k, e)])) [] ;;
  Ret (mkal (al_vertices g) (al_nodes g) W).
(** the row of one vertex (1005-1017) *)
Definition j_row (g : al) (distances : list (string * option Z)) (u : string) : res (list (string * option Z) * list (string * option string)) :=
  ' (dijkstra_dist, dijkstra_pred) <- dijkstra_all (al_view g) u ;;
  forM (al_vertices g) (fun v '(drow, nrow) =>
    p <- dgetE dijkstra_pred v ;;
    let nrow := sdset nrow v (match p with None => Some u | Some w => if String.eqb w u then Some u else None end) in
    match sdget dijkstra_dist v with
    | Some d => du <- dgetE distances u ;; dv <- dgetE distances v ;; Ret (sdset drow v (oadd (osub d du) dv), nrow)
    | None => Ret (sdset drow v None, nrow)
    end) ([], []).
Definition jtable : Type := list (string * list (string * option Z)) * list (string * list (string * option string)).
Definition j_rows (g : al) (distances : list (string * option Z)) : res jtable :=
  forM (al_vertices g) (fun u '(all_distances, all_next_vertex) =>
    ' (drow, nrow) <- j_row g distances u ;; Ret (sdset all_distances u drow, sdset all_next_vertex u nrow)) ([], []).
(** the whole function (977-1019) *)
Definition johnson (g : al) : al * res jtable :=
  jstep g (j_grow g) (fun g1 =>
  jstep g1 (bellman_ford_all (al_view g1) jq) (fun '(distances, _) =>
  jstep g1 (j_shrink g1) (fun g2 =>
  jstep g2 (j_reweight g2 distances) (fun g3 =>
  (g3, j_rows g3 distances))))).
