(** Model of prim's minimum spanning trees (pydatastructs/graphs/algorithms.py 258-279) and the parallel variant (373-423), adjacency lists only.
    The tree is a new graph whose vertices are the node objects of the given graph, shared with it: so the tree is known by its list of vertices
    [mv] and its edge_weights [w], and the node objects stay in the given graph [g]. *)
From Coq Require Import Strings.String.
From Verif Require Import Base DsfModel GraphModel BinomialModel.
Import List.

(** the tree as a graph object of its own *)
Definition mst_view (g : al) (mv : list string) (w : list (string * edge)) : al :=
  mkal mv (filter (fun x => mem (fst x) mv) (al_nodes g)) w.
(** hasattr(mst, v) (265): the attributes of a graph are its vertices and those every graph has *)
Definition mst_hasattr (mv : list string) (v : string) : bool := mem v mv || mem v al_reserved.
(** mst.add_vertex(graph.__getattribute__(v)) (266) and mst.add_vertex(edge.target) (269); adjacency_list.py 56-59 *)
Definition mst_add_vertex (mv : list string) (v : string) : list string := if negb (mst_hasattr mv v) then mv ++ [v] else mv.
(** mst.add_edge(source, target, value) (270-271): the source node that gets a neighbour is an object of the given graph too *)
Definition mst_add_edge (g : al) (mv : list string) (w : list (string * edge)) (source target : string) (value : Z) : res (al * list (string * edge)) :=
  mst <- al_add_edge (mst_view g mv w) source target (Some value) ;;
  n <- al_getattr mst source ;;
  Ret (al_setnode g source n, al_weights mst).
(** e.get(w, None) is None or e[w].value > vw.value, then e[w] = vw (276-278) *)
Definition keep_cheaper (e : list (string * edge)) (w : string) (vw : edge) : list (string * edge) :=
  match sdget e w with
  | None => sdset e w vw
  | Some x => if e_val vw <? e_val x then sdset e w vw else e
  end.
(** 266-271: the new vertex and the edge that joins it to the tree *)
Definition mst_join (g : al) (mv : list string) (w : list (string * edge)) (v : string) (joining : option edge) : res (al * list string * list (string * edge)) :=
  al_getattr g v ;;;
  let mv := mst_add_vertex mv v in
  match joining with
  | None => Ret (g, mv, w)
  | Some edge =>
    let mv := mst_add_vertex mv (e_tgt edge) in
    ' (g, w) <- mst_add_edge g mv w (e_src edge) (e_tgt edge) (e_val edge) ;;
    ' (g, w) <- mst_add_edge g mv w (e_tgt edge) (e_src edge) (e_val edge) ;;
    Ret (g, mv, w)
  end.

(** _minimum_spanning_tree_prim_adjacency_list (258-279): the tree and the given graph afterwards *)
Definition prim_al (g : al) : res (al * al) :=
  match al_vertices g with
  | [] => Raise StopIteration
  | s :: _ =>
    q <- bh_insert ([] : bheap string) 0 s ;;
    while_loop (2 + length (al_vertices g) * length (al_vertices g)) (fun '(q, e, mv, w, g) =>
      if bh_is_empty q then Ret (Break (mst_view g mv w, g))
      else
        ' (node, _) <- bh_find_minimum q ;;
        q <- bh_delete_minimum q ;;
        let v := b_data node in
        if negb (mst_hasattr mv v) then
          ' (g, mv, w) <- mst_join g mv w v (sdget e v) ;;
          ns <- al_neighbors g v ;;
          ' (q, e) <- forM ns (fun x '(q, e) =>
            match sdget (al_weights g) (ekey v x) with
            | None => Raise KeyError
            | Some vw => q <- bh_insert q (e_val vw) x ;; Ret (q, keep_cheaper e x vw)
            end) (q, e) ;;
          Ret (Next (q, e, mv, w, g))
        else Ret (Next (q, e, mv, w, g))) (q, [], [], [], g)
  end.

(** _find_min (373-377) *)
Definition find_min (q : bheap string) : res (option (bnode string)) :=
  if negb (bh_is_empty q) then ' (n, _) <- bh_find_minimum q ;; Ret (Some n) else Ret None.
(** _comp(_vs[i], v, lambda u, v: u.key < v.key) (utils/misc_util.py 584-597) *)
Definition node_before (u v : option (bnode string)) : bool :=
  match u, v with
  | None, Some _ => false
  | Some _, None => true
  | None, None => false
  | Some u, Some v => b_key u <? b_key v
  end.
(** _minimum_spanning_tree_parallel_prim_adjacency_list (379-423), for at least one thread. The submitted jobs are waited for one by one
    (.result()), so nothing runs concurrently. *)
Definition prim_parallel_al (num_threads : nat) (g : al) : res (al * al) :=
  let v2q := snd (fold_left (fun '(i, d) v => (S i, sdset d v (i mod num_threads)%nat)) (al_vertices g) (0%nat, [])) in
  match al_vertices g with
  | [] => Raise StopIteration
  | s :: _ =>
    q0 <- bh_insert ([] : bheap string) 0 s ;;
    while_loop (2 + length (al_vertices g) * length (al_vertices g)) (fun '(q, e, mv, w, g) =>
      vs <- forM q (fun qi acc => x <- find_min qi ;; Ret (acc ++ [x])) [] ;;
      match fold_left (fun v x => if node_before x v then x else v) vs None with
      | None => Ret (Break (mst_view g mv w, g))
      | Some node =>
        let v := b_data node in
        match sdget v2q v with
        | None => Raise KeyError
        | Some idx =>
          ' (_, _) <- bh_find_minimum (nth idx q []) ;;
          qi <- bh_delete_minimum (nth idx q []) ;;
          let q := upd q idx qi in
          if negb (mst_hasattr mv v) then
            ' (g, mv, w) <- mst_join g mv w v (sdget (nth idx e []) v) ;;
            ns <- al_neighbors g v ;;
            ' (q, e) <- forM ns (fun x '(q, e) =>
              match sdget (al_weights g) (ekey v x) with
              | None => Raise KeyError
              | Some vw =>
                match sdget v2q x with
                | None => Raise KeyError
                | Some j => qj <- bh_insert (nth j q []) (e_val vw) x ;; Ret (upd q j qj, upd e j (keep_cheaper (nth j e []) x vw))
                end
              end) (q, e) ;;
            Ret (Next (q, e, mv, w, g))
          else Ret (Next (q, e, mv, w, g))
        end
      end) (upd (repeat [] num_threads) 0 q0, repeat [] num_threads, [], [], g)
  end.
