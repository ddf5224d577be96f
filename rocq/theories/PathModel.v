(** Model of the shortest-path algorithms (pydatastructs/graphs/algorithms.py 821-1020): bellman_ford, dijkstra, floyd_warshall.
    Distances are [option Z] with None for float('inf'). *)
From Coq Require Import Strings.String Strings.Ascii.
From Verif Require Import Base DsfModel GraphModel.
Import List.

(** dict[k] *)
Definition dgetE {V} (d : list (string * V)) (k : string) : res V := match sdget d k with Some v => Ret v | None => Raise KeyError end.
(** x + y and x < y with inf *)
Definition oadd (x y : option Z) : option Z := match x, y with Some a, Some b => Some (a + b) | _, _ => None end.
Definition oltb (x y : option Z) : bool := match x, y with Some a, Some b => a <? b | Some _, None => true | None, _ => false end.

(** ** _bellman_ford_adjacency_list (821-853), _adjacency_matrix (855) *)
Record bf := mkbf { bf_dist : list (string * option Z); bf_pred : list (string * option string); bf_vis : list (string * bool);
                    bf_cnt : list (string * Z); bf_que : list string }.
(** the initialisation (824-829) *)
Definition bf_init (g : gview) (source : string) : bf :=
  let st := fold_left (fun st v => mkbf (sdset (bf_dist st) v None) (sdset (bf_pred st) v None) (sdset (bf_vis st) v false) (sdset (bf_cnt st) v 0) (bf_que st))
              (gv_vertices g) (mkbf [] [] [] [] []) in
  mkbf (sdset (bf_dist st) source (Some 0)) (bf_pred st) (bf_vis st) (bf_cnt st) [source].
(** one neighbour of u (839-849) *)
Definition bf_relax (g : gview) (u v : string) (st : bf) : res bf :=
  let verticy_num := len (gv_vertices g) in
  du <- dgetE (bf_dist st) u ;;
  match du with
  | None => Ret st
  | Some _ =>
    e <- dgetE (gv_weights g) (ekey u v) ;;
    dv <- dgetE (bf_dist st) v ;;
    if oltb (oadd du (Some (e_val e))) dv then
      cu <- dgetE (bf_cnt st) u ;;
      let st := mkbf (sdset (bf_dist st) v (oadd du (Some (e_val e)))) (sdset (bf_pred st) v (Some u)) (bf_vis st) (sdset (bf_cnt st) v (cu + 1)) (bf_que st) in
      if verticy_num <=? cu + 1 then Raise ValueError
      else
        iv <- dgetE (bf_vis st) v ;;
        if negb iv then Ret (mkbf (bf_dist st) (bf_pred st) (sdset (bf_vis st) v true) (bf_cnt st) (bf_que st ++ [v])) else Ret st
    else Ret st
  end.
(** an upper bound on the number of rounds of the loop, used as fuel (that it is one is proved) *)
Definition wsum (g : gview) : Z := fold_right (fun e n => Z.abs (e_val (snd e)) + n) 0 (gv_weights g).
Definition bf_fuel (g : gview) : nat :=
  Z.to_nat (2 * len (gv_vertices g) * (2 * len (gv_vertices g) * wsum g + 2) + 2).
(** (distances, predecessor) (834-853) *)
Definition bellman_ford_all (g : gview) (source : string) : res (list (string * option Z) * list (string * option string)) :=
  while_loop (bf_fuel g) (fun st =>
    match bf_que st with
    | [] => Ret (Break (bf_dist st, bf_pred st))
    | u :: q =>
      let st := mkbf (bf_dist st) (bf_pred st) (sdset (bf_vis st) u false) (bf_cnt st) q in
      neighbors <- gv_neighbors g u ;;
      st <- forM neighbors (bf_relax g u) st ;;
      Ret (Next st)
    end) (bf_init g source).
(** with a target: (distances[target], predecessor) (851-852) *)
Definition bellman_ford_to (g : gview) (source target : string) : res (option Z * list (string * option string)) :=
  ' (distances, predecessor) <- bellman_ford_all g source ;;
  d <- dgetE distances target ;; Ret (d, predecessor).

(** ** _floyd_warshall_adjacency_list (946-973), _adjacency_matrix (975) *)
Definition dist2 (d : list (string * list (string * option Z))) (i j : string) : option Z :=
  match sdget d i with None => None | Some row => match sdget row j with None => None | Some x => x end end.
(** dist[i][j] = x: KeyError if there is no row i *)
Definition set2 {V} (d : list (string * list (string * V))) (i j : string) (x : V) : res (list (string * list (string * V))) :=
  row <- dgetE d i ;; Ret (sdset d i (sdset row j x)).
Definition floyd_warshall (g : gview) : res (list (string * list (string * option Z)) * list (string * list (string * option string))) :=
  let V := gv_vertices g in
  let dist := fold_left (fun d v => sdset d v []) V [] in
  let next_vertex := fold_left (fun d v => sdset d v []) V [] in
  ' (dist, next_vertex) <- forM (gv_weights g) (fun '(name, edge) '(dist, next_vertex) =>
      dist <- set2 dist (e_src edge) (e_tgt edge) (Some (e_val edge)) ;;
      next_vertex <- set2 next_vertex (e_src edge) (e_tgt edge) (Some (e_src edge)) ;;
      Ret (dist, next_vertex)) (dist, next_vertex) ;;
  ' (dist, next_vertex) <- forM V (fun v '(dist, next_vertex) =>
      dist <- set2 dist v v (Some 0) ;;
      next_vertex <- set2 next_vertex v v (Some v) ;;
      Ret (dist, next_vertex)) (dist, next_vertex) ;;
  forM V (fun k st => forM V (fun i st => forM V (fun j '(dist, next_vertex) =>
      let dist_i_j := dist2 dist i j in
      let dist_i_k := dist2 dist i k in
      let dist_k_j := dist2 dist k j in
      (** next_vertex.get(i + '_' + k, None): the dict of dicts is keyed by vertices, so this is a row (stored as the value) or None; for
          names without underscore it is always None. A row is represented by None here too. *)
      let next_i_k := @None string in
      if oltb (oadd dist_i_k dist_k_j) dist_i_j then
        dist <- set2 dist i j (oadd dist_i_k dist_k_j) ;;
        next_vertex <- set2 next_vertex i j next_i_k ;;
        Ret (dist, next_vertex)
      else Ret (dist, next_vertex)) st) st) (dist, next_vertex).
