(** Model of kruskal's minimum spanning trees (pydatastructs/graphs/algorithms.py 228-256, 356-371). *)
From Coq Require Import Strings.String Strings.Ascii.
From Verif Require Import Base DsfModel GraphModel SortModel.
Import List.

(** sorted(edges, key=...) for integer keys: the stable sort, as insertion sort *)
Fixpoint sort_insert {A} (key : A -> Z) (x : A) (l : list A) : list A :=
  match l with [] => [x] | y :: l' => if key x <=? key y then x :: l else y :: sort_insert key x l' end.
Definition py_sorted {A} (key : A -> Z) (l : list A) : list A := fold_right (sort_insert key) [] l.
(** _sort_edges (232-240): with num_threads, merge_sort_parallel on the list of items *)
Definition item_value (item : string * edge) : Z := e_val (snd item).
Definition sort_edges (g : gview) : res (list (string * edge)) := Ret (py_sorted item_value (gv_weights g)).
Definition sort_edges_parallel (num_threads : Z) (g : gview) : res (list (string * edge)) :=
  let edges := map Some (gv_weights g) in
  a <- merge_sort_parallel (fun u v => item_value u <=? item_value v) num_threads edges 0 (len edges - 1) ;;
  forM a (fun c acc => match c with Some x => Ret (acc ++ [x]) | None => Raise TypeError end) [].

(** the loop of _minimum_spanning_tree_kruskal_adjacency_list (244-253) and of the parallel one (358-368); [add] is mst.add_edge *)
Definition kruskal_loop {M : Type} (add : M -> string -> string -> option Z -> res M) (mst : M) (vertices : list string) (edges : list (string * edge)) : res M :=
  let dsf := fold_left (make_set String.eqb) vertices [] in
  ' (mst, _) <- forM edges (fun item '(mst, dsf) =>
    let edge := snd item in
    let u := e_src edge in
    let v := e_tgt edge in
    ' (ru, dsf) <- find_root String.eqb dsf u ;;
    ' (rv, dsf) <- find_root String.eqb dsf v ;;
    if negb (String.eqb ru rv) then
      mst <- add mst u v (Some (e_val edge)) ;;
      mst <- add mst v u (Some (e_val edge)) ;;
      dsf <- dsf_union String.eqb dsf u v ;;
      Ret (mst, dsf)
    else Ret (mst, dsf)) (mst, dsf) ;;
  Ret mst.

(** _generate_mst_object (228-230): Graph called on the node objects of the graph, which are shared; so adjacency-list nodes keep
    their neighbours and a new edge of the tree appears in the given graph too. The result is (mst, the given graph afterwards). *)
Definition mst_object_al (g : al) : al := mkal (al_vertices g) (al_nodes g) [].
Definition kruskal_al (sort : gview -> res (list (string * edge))) (g : al) : res (al * al) :=
  edges <- sort (al_view g) ;;
  mst <- kruskal_loop al_add_edge (mst_object_al g) (al_vertices g) edges ;;
  Ret (mst, mkal (al_vertices g) (al_nodes mst) (al_weights g)).
(** adjacency-matrix nodes hold no edges; the given graph does not change *)
Definition mst_object_am (g : am) : am := am_new (am_vertices g).
Definition kruskal_am (sort : gview -> res (list (string * edge))) (g : am) : res am :=
  edges <- sort (am_view g) ;;
  kruskal_loop am_add_edge (mst_object_am g) (am_vertices g) edges.
