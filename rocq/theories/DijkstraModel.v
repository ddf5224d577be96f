(** Model of _dijkstra_adjacency_list (pydatastructs/graphs/algorithms.py 857-883), _adjacency_matrix (885).
    Distances are [option Z] with None for float('inf'). The queue is BinomialHeapPriorityQueue (queue.py 468-498) over the model of BinomialHeap,
    whose keys are integers: inf is the key [inf_key], larger than every distance that occurs (proved with the other invariants), so every
    comparison of keys comes out as in the code. *)
From Coq Require Import Strings.String Strings.Ascii.
From Verif Require Import Base DsfModel GraphModel PathModel BinomialModel.
Import List.

Record dj := mkdj { d_dist : list (string * option Z); d_pred : list (string * option string); d_vis : list (string * bool); d_pq : bheap string }.
Definition inf_key (g : gview) : Z := len (gv_vertices g) * wsum g + 1.
Definition key_of (g : gview) (d : option Z) : Z := match d with Some z => z | None => inf_key g end.
(** pq.push(v, d) (queue.py 481-482) and pq.pop() (484-487) *)
Definition dj_push (g : gview) (pq : bheap string) (v : string) (d : option Z) : res (bheap string) := bh_insert pq (key_of g d) v.
Definition dj_pop (pq : bheap string) : res (string * bheap string) :=
  ' (node, _) <- bh_find_minimum pq ;; pq <- bh_delete_minimum pq ;; Ret (b_data node, pq).
(** the initialisation (858-868). dist is filled in the order of vertices without start, then start *)
Definition dj_init (g : gview) (start : string) : res dj :=
  let '(dist, pred, visited) := fold_left (fun '(dist, pred, visited) v =>
      (if negb (String.eqb v start) then sdset dist v None else dist, sdset pred v None, sdset visited v false)) (gv_vertices g) ([], [], []) in
  let dist := sdset dist start (Some 0) in
  pq <- forM dist (fun '(vertex, d) pq => dj_push g pq vertex d) [] ;;
  Ret (mkdj dist pred visited pq).
(** the body of the loop over graph.vertices (872-878) *)
Definition dj_relax (g : gview) (u v : string) (st : dj) : res dj :=
  match sdget (gv_weights g) (ekey u v) with
  | None => Ret st
  | Some e =>
    if 0 <=? e_val e then
      vv <- dgetE (d_vis st) v ;;
      if negb vv then
        dv <- dgetE (d_dist st) v ;; du <- dgetE (d_dist st) u ;;
        if oltb (oadd du (Some (e_val e))) dv then
          let d := oadd du (Some (e_val e)) in
          pq <- dj_push g (d_pq st) v d ;;
          Ret (mkdj (sdset (d_dist st) v d) (sdset (d_pred st) v (Some u)) (d_vis st) pq)
        else Ret st
      else Ret st
    else Ret st
  end.
(** one round of the main loop (870-878) *)
Definition dj_round (g : gview) (st : dj) : res dj :=
  ' (u, pq) <- dj_pop (d_pq st) ;;
  forM (gv_vertices g) (dj_relax g u) (mkdj (d_dist st) (d_pred st) (sdset (d_vis st) u true) pq).
(** the loop runs len(graph.vertices) times (869) *)
Definition dijkstra_all (g : gview) (start : string) : res (list (string * option Z) * list (string * option string)) :=
  st <- dj_init g start ;;
  st <- forM (gv_vertices g) (fun _ st => dj_round g st) st ;;
  Ret (d_dist st, d_pred st).
(** with a target other than the empty string (880-881) *)
Definition dijkstra_to (g : gview) (start target : string) : res (option Z * list (string * option string)) :=
  ' (dist, pred) <- dijkstra_all g start ;; d <- dgetE dist target ;; Ret (d, pred).
