(** Model of the C++ backend of graphs: AdjacencyListGraph (graphs/_backend/cpp/AdjacencyList.hpp), its nodes
    (utils/_backend/cpp/AdjacencyListGraphNode.hpp), GraphEdge (utils/_backend/cpp/GraphEdge.hpp) and the algorithms on it
    (graphs/_backend/cpp/Algorithms.hpp).
    A node object is known by its name (its address is the name); nodes are fresh when added and used in one graph only, so a node's
    internal_id is the id the graph maps its name to. unordered_maps are association lists with distinct keys; where one is
    iterated, the order comes from a parameter [ord] (any permutation, per map). Costs are ints or absent. Undefined behaviour
    (index out of a vector, nullptr) is an exception. *)
From Coq Require Import Strings.String Strings.Ascii.
From Verif Require Import Base DsfModel GraphModel CppModel.
Import List.

Notation idget := (dget Z.eqb).
Notation idset := (dset Z.eqb).
(** erase(key) in a map with int keys *)
Definition ipop {V} (t : list (Z * V)) (k : Z) : list (Z * V) := filter (fun x => negb (Z.eqb k (fst x))) t.

(** GraphEdge: source, target, value *)
Definition cedge : Type := string * string * option Z.
(** AdjacencyListGraph (AdjacencyList.hpp 16-28): nodes (their names are the keys of node_map), name_to_id, id_to_name (also id_map),
    the [adjacent] keys of the node objects, edges, next_id *)
Record cg := mkcg { cg_nodes : list string; cg_n2i : list (string * Z); cg_i2n : list (Z * string); cg_adj : list (string * list string);
  cg_edges : list (string * cedge); cg_next : Z }.

(** AdjacencyListGraph() (49-96, no arguments) *)
Definition cg_empty : cg := mkcg [] [] [] [] [] 0.
(** node_map.find(name) != node_map.end() *)
Definition cg_has (g : cg) (name : string) : bool := mem name (cg_nodes g).
(** add_vertex (102-132) *)
Definition cg_add_vertex (g : cg) (name : string) : res cg :=
  if cg_has g name then Raise ValueError
  else Ret (mkcg (cg_nodes g ++ [name]) (sdset (cg_n2i g) name (cg_next g)) (idset (cg_i2n g) (cg_next g) name)
                 (sdset (cg_adj g) name []) (cg_edges g) (cg_next g + 1)).
(** AdjacencyList.__new__ (graphs/adjacency_list.py 30-34) *)
Definition cg_new (names : list string) : res cg := forM names (fun n g => cg_add_vertex g n) cg_empty.
(** id_map[id] / node->adjacent: the node behind an id; a missing one is a nullptr *)
Definition cg_node (g : cg) (id : Z) : res string := match idget (cg_i2n g) id with Some n => Ret n | None => Raise SystemError end.
Definition cg_adjacent (g : cg) (name : string) : res (list string) := match sdget (cg_adj g) name with Some l => Ret l | None => Raise SystemError end.
(** is_adjacent (135-154) *)
Definition cg_is_adjacent (g : cg) (node1 node2 : string) : res bool :=
  match sdget (cg_n2i g) node1 with
  | None => Raise KeyError
  | Some id => n <- cg_node g id ;; l <- cg_adjacent g n ;; Ret (mem node2 l)
  end.
(** num_vertices (156-158), num_edges (160-162) *)
Definition cg_num_vertices (g : cg) : Z := len (cg_nodes g).
Definition cg_num_edges (g : cg) : Z := len (cg_edges g).
(** neighbors (164-186) *)
Definition cg_neighbors (ord : string -> list string -> list string) (g : cg) (node : string) : res (list string) :=
  match sdget (cg_n2i g) node with
  | None => Raise KeyError
  | Some id => n <- cg_node g id ;; l <- cg_adjacent g n ;; Ret (ord n l)
  end.
(** key.substr(0, key.find('_')) and key.substr(key.find('_') + 1) (224-226; Algorithms.hpp 342-344): without an underscore, find is npos and
    both are the whole key *)
Fixpoint before_us (s : string) : string := match s with EmptyString => EmptyString | String c s' => if Ascii.eqb c "_"%char then EmptyString else String c (before_us s') end.
Fixpoint after_us (s : string) : option string := match s with EmptyString => None | String c s' => if Ascii.eqb c "_"%char then Some s' else after_us s' end.
Definition key_src (k : string) : string := before_us k.
Definition key_dst (k : string) : string := match after_us k with Some t => t | None => k end.
(** remove_vertex (188-237) *)
Definition cg_remove_vertex (g : cg) (name_c : string) : res cg :=
  match sdget (cg_n2i g) name_c with
  | None => Raise KeyError
  | Some id =>
    name <- cg_node g id ;;
    Ret (mkcg (filter (fun x => negb (String.eqb name x)) (cg_nodes g)) (dpop (cg_n2i g) name) (ipop (cg_i2n g) id)
              (map (fun x => (fst x, filter (fun y => negb (String.eqb name y)) (snd x))) (dpop (cg_adj g) name))
              (filter (fun x => negb (String.eqb name (key_src (fst x)) || String.eqb name (key_dst (fst x)))) (cg_edges g)) (cg_next g))
  end.
(** get_edge (240-254): None, or the edge *)
Definition cg_get_edge (g : cg) (source target : string) : option cedge := sdget (cg_edges g) (ekey source target).
(** remove_edge (256-289) *)
Definition cg_remove_edge (g : cg) (source target : string) : res cg :=
  if cg_has g source && cg_has g target then
    l <- cg_adjacent g source ;;
    Ret (mkcg (cg_nodes g) (cg_n2i g) (cg_i2n g) (sdset (cg_adj g) source (filter (fun y => negb (String.eqb target y)) l))
              (dpop (cg_edges g) (ekey source target)) (cg_next g))
  else Raise KeyError.
(** adjacent[target] = target_node *)
Definition adj_insert (l : list string) (x : string) : list string := if mem x l then l else l ++ [x].
(** GraphEdge(source, target, value) (GraphEdge.hpp 29-70): an int beyond 64 bits leaves an exception set *)
Definition graph_edge (s t : string) (value : option Z) : res cedge :=
  match value with
  | Some z => if (z <? - 2 ^ 63) || (2 ^ 63 <=? z) then Raise SystemError else Ret (s, t, value)
  | None => Ret (s, t, None)
  end.
(** add_edge (291-345) *)
Definition cg_add_edge (g : cg) (source target : string) (value : option Z) : res cg :=
  if cg_has g source && cg_has g target then
    e <- graph_edge source target value ;;
    l <- cg_adjacent g source ;;
    Ret (mkcg (cg_nodes g) (cg_n2i g) (cg_i2n g) (sdset (cg_adj g) source (adj_insert l target)) (sdset (cg_edges g) (ekey source target) e) (cg_next g))
  else Raise ValueError.

(** histories: a call that raises leaves the graph as it was *)
Definition cg_call (g : cg) (o : gop) : res cg :=
  match o with
  | GAddV n => cg_add_vertex g n
  | GRemV n => cg_remove_vertex g n
  | GAddE u v c => cg_add_edge g u v c
  | GRemE u v => cg_remove_edge g u v
  end.
Definition cg_run (names : list string) (ops : list gop) : res cg := g <- cg_new names ;; forM ops (fun o g => settle g (cg_call g o)) g.

(** ** breadth_first_search_adjacency_list (Algorithms.hpp 11-82): the calls of [operation], whose results (an oracle of the calls so far)
    are thrown away *)
Definition cpp_bfs (ord : string -> list string -> list string) (fuel : nat) (g : cg) (source_name : string) (op : list (string * string) -> string -> string -> bool)
  : res (list (string * string)) :=
  if negb (cg_has g source_name) then Raise SystemError
  else
    while_loop fuel (fun '(q, visited, calls) =>
      match q with
      | [] => Ret (Break calls)
      | node :: q =>
        l <- cg_adjacent g node ;;
        s <- forM (ord node l) (fun adj_name '(q, visited, calls) =>
          if mem adj_name visited then Ret (q, visited, calls)
          else let _ := op calls node adj_name in Ret (q ++ [adj_name], adj_name :: visited, calls ++ [(node, adj_name)])) (q, visited, calls) ;;
        Ret (Next s)
      end) ([source_name], [source_name], []).

(** ** shortest_paths_dijkstra_adjacency_list (Algorithms.hpp 321-459). Doubles are exact integers (so only |values| up to 2^53), None is
    infinity. name_to_id[name] (operator []) inserts 0 for a missing name; id_to_name[id] inserts "" (not kept: nothing else reads id_to_name). *)
Definition n2i_at (m : list (string * Z)) (name : string) : Z * list (string * Z) :=
  match sdget m name with Some i => (i, m) | None => (0, sdset m name 0) end.
Definition i2n_at (m : list (Z * string)) (id : Z) : string := match idget m id with Some n => n | None => EmptyString end.
(** std::priority_queue of pairs with std::greater<>: a list in ascending order of pairs *)
Definition pair_leb (x y : Z * Z) : bool := (fst x <? fst y) || ((fst x =? fst y) && (snd x <=? snd y)).
Fixpoint pq_push (x : Z * Z) (q : list (Z * Z)) : list (Z * Z) := match q with [] => [x] | y :: q' => if pair_leb x y then x :: q else y :: pq_push x q' end.
Definition dlt (x : Z) (o : option Z) : bool := match o with Some y => x <? y | None => true end.
(** lines 340-359: adjacency vectors from the edges *)
Definition build_adj (es : list (string * cedge)) (V : Z) (n2i : list (string * Z)) : res (list (list (Z * Z)) * list (string * Z)) :=
  forM es (fun '(k, (_, _, value)) '(adj, n2i) =>
    let '(u, n2i) := n2i_at n2i (key_src k) in
    let '(v, n2i) := n2i_at n2i (key_dst k) in
    match value with
    | None => Ret (adj, n2i)
    | Some weight => if weight <? 0 then Ret (adj, n2i) else l <- cget adj u ;; adj <- cset adj u (l ++ [(v, weight)]) ;; Ret (adj, n2i)
    end) (repeat [] (Z.to_nat V), n2i).
(** lines 370-384 *)
Definition dij_loop (fuel : nat) (adj : list (list (Z * Z))) (dist : list (option Z)) (pred : list Z) (pq : list (Z * Z)) : res (list (option Z) * list Z) :=
  while_loop fuel (fun '(dist, pred, pq) =>
    match pq with
    | [] => Ret (Break (dist, pred))
    | (u_dist, u_id) :: pq =>
      du <- cget dist u_id ;;
      if negb (dlt u_dist du) && negb (match du with Some x => u_dist =? x | None => false end) then Ret (Next (dist, pred, pq))
      else
        l <- cget adj u_id ;;
        s <- forM l (fun '(v_id, weight) '(dist, pred, pq) =>
          du <- cget dist u_id ;;
          match du with
          | None => Ret (dist, pred, pq)
          | Some x =>
            dv <- cget dist v_id ;;
            if dlt (x + weight) dv then
              dist <- cset dist v_id (Some (x + weight)) ;;
              pred <- cset pred v_id u_id ;;
              Ret (dist, pred, pq_push (x + weight, v_id) pq)
            else Ret (dist, pred, pq)
          end) (dist, pred, pq) ;;
        Ret (Next s)
    end) (dist, pred, pq).
Definition dij_result := (list (string * option Z) * list (string * option string))%type.
(** lines 338-423: dist, the two dictionaries, and the graph after the call (its name_to_id may have grown) *)
Definition cpp_dijkstra_run (ordE : list (string * cedge) -> list (string * cedge)) (fuel : nat) (g : cg) (source_name : string) : res (list (option Z) * dij_result * cg) :=
  let V := len (cg_nodes g) in
  ' (adj, n2i) <- build_adj (ordE (cg_edges g)) V (cg_n2i g) ;;
  let '(source_id, n2i) := n2i_at n2i source_name in
  dist <- cset (repeat None (Z.to_nat V)) source_id (Some 0) ;;
  ' (dist, pred) <- dij_loop fuel adj dist (repeat (-1) (Z.to_nat V)) [(0, source_id)] ;;
  dist_dict <- forM (zrange 0 V) (fun id d => x <- cget dist id ;; Ret (sdset d (i2n_at (cg_i2n g) id) x)) [] ;;
  pred_dict <- forM (zrange 0 V) (fun id d => p <- cget pred id ;;
    Ret (sdset d (i2n_at (cg_i2n g) id) (if p =? -1 then None else Some (i2n_at (cg_i2n g) p)))) [] ;;
  Ret (dist, (dist_dict, pred_dict), mkcg (cg_nodes g) n2i (cg_i2n g) (cg_adj g) (cg_edges g) (cg_next g)).
(** the call without a target (or with the target ""): the two dictionaries (449-458) *)
Definition cpp_dijkstra ordE (fuel : nat) (g : cg) (source_name : string) : res (dij_result * cg) :=
  ' (_, r, g) <- cpp_dijkstra_run ordE fuel g source_name ;; Ret (r, g).
(** the call with a non-empty target: its distance and pred_dict (425-447) *)
Definition cpp_dijkstra_to ordE (fuel : nat) (g : cg) (source_name target_name : string) : res (option Z * list (string * option string) * cg) :=
  ' (dist, r, g) <- cpp_dijkstra_run ordE fuel g source_name ;;
  let '(target_id, n2i) := n2i_at (cg_n2i g) target_name in
  d <- cget dist target_id ;;
  Ret (d, snd r, mkcg (cg_nodes g) n2i (cg_i2n g) (cg_adj g) (cg_edges g) (cg_next g)).

(** ** minimum_spanning_tree_prim_adjacency_list (Algorithms.hpp 160-319). [pick] says which of the smallest elements of the priority queue
    is on top (the heap's choice among ties). The node objects of the tree are those of the graph, so the tree's adjacency is read off the
    graph's at the end; next_id of the tree stays 0. *)
Definition etuple : Type := Z * Z * option Z.
(** operator> (175-184) between values: None (a smaller type tag) is below ints *)
Definition val_gtb (x y : option Z) : bool :=
  match x, y with Some a, Some b => b <? a | Some _, None => true | None, _ => false end.
(** what std::priority_queue with std::greater<> promises about top(): nothing in the queue is below it. (In one run no entry is pushed twice,
    so the queue is never twice the same list, and a choice that depends on the list covers every choice.) *)
Definition tops (pick : list etuple -> nat) : Prop :=
  forall pq, pq <> [] -> exists x, nth_error pq (pick pq) = Some x /\ forall y, In y pq -> val_gtb (snd x) (snd y) = false.
Definition prim_push (g : cg) (src : string) (src_id : Z) (adj_name : string) (adj_id : Z) (pq : list etuple) : res (list etuple) :=
  match sdget (cg_edges g) (ekey src adj_name) with
  | None => Raise SystemError
  | Some (_, _, value) => Ret (pq ++ [(src_id, adj_id, value)])
  end.
Definition remove_nth {X} (i : nat) (l : list X) : list X := (firstn i l ++ skipn (S i) l).
(** the tree under construction: nodes, name_to_id, id_to_name, edges *)
Record pmst := mkpmst { pm_nodes : list string; pm_n2i : list (string * Z); pm_i2n : list (Z * string); pm_edges : list (string * cedge) }.
Definition pm_add (m : pmst) (id : Z) (name : string) : pmst :=
  match idget (pm_i2n m) id with
  | Some _ => m
  | None => mkpmst (pm_nodes m ++ [name]) (sdset (pm_n2i m) name id) (idset (pm_i2n m) id name) (pm_edges m)
  end.
Definition pm_view (m : pmst) (g : cg) : cg :=
  mkcg (pm_nodes m) (pm_n2i m) (pm_i2n m) (filter (fun x => mem (fst x) (pm_nodes m)) (cg_adj g)) (pm_edges m) 0.
Definition cg_link (g : cg) (u v : string) : res cg :=
  l <- cg_adjacent g u ;; Ret (mkcg (cg_nodes g) (cg_n2i g) (cg_i2n g) (sdset (cg_adj g) u (adj_insert l v)) (cg_edges g) (cg_next g)).
Definition zmem (x : Z) (l : list Z) : bool := existsb (Z.eqb x) l.
Definition cpp_prim (ord : string -> list string -> list string) (pick : list etuple -> nat) (fuel : nat) (g : cg) : res (cg * cg) :=
  match cg_nodes g with
  | [] => Raise SystemError
  | n0 :: _ =>
    match sdget (cg_n2i g) n0 with
    | None => Raise SystemError
    | Some start_id =>
      let m := mkpmst [n0] [(n0, start_id)] [(start_id, n0)] [] in
      l <- cg_adjacent g n0 ;;
      pq <- forM (ord n0 l) (fun adj_name pq =>
        match sdget (cg_n2i g) adj_name with Some adj_id => prim_push g n0 start_id adj_name adj_id pq | None => Raise SystemError end) [] ;;
      ' (m, g) <- while_loop fuel (fun '(m, g, visited, pq) =>
        match pq with
        | [] => Ret (Break (m, g))
        | _ =>
          match nth_error pq (pick pq) with
          | None => Raise SystemError
          | Some (u_id, v_id, value) =>
            let pq := remove_nth (pick pq) pq in
            if zmem v_id visited then Ret (Next (m, g, visited, pq))
            else
              let visited := v_id :: visited in
              u_name <- cg_node g u_id ;;
              v_name <- cg_node g v_id ;;
              let m := pm_add (pm_add m u_id u_name) v_id v_name in
              g <- cg_link g u_name v_name ;;
              g <- cg_link g v_name u_name ;;
              let m := mkpmst (pm_nodes m) (pm_n2i m) (pm_i2n m)
                (sdset (sdset (pm_edges m) (ekey u_name v_name) (u_name, v_name, value)) (ekey v_name u_name) (v_name, u_name, value)) in
              l <- cg_adjacent g v_name ;;
              pq <- forM (ord v_name l) (fun adj_name pq =>
                match sdget (cg_n2i g) adj_name with
                | None => Raise SystemError
                | Some adj_id => if zmem adj_id visited then Ret pq else prim_push g v_name v_id adj_name adj_id pq
                end) pq ;;
              Ret (Next (m, g, visited, pq))
          end
        end) (m, g, [start_id], pq) ;;
      Ret (pm_view m g, g)
    end
  end.
