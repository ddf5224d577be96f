(** Model of the graph containers: AdjacencyList (pydatastructs/graphs/adjacency_list.py), AdjacencyMatrix
    (pydatastructs/graphs/adjacency_matrix.py), their node classes (utils/misc_util.py 366-470) and GraphEdge (473-507).
    Names are Coq strings. Attribute access is a dict from names to node objects together with the list of names that are attributes of
    every such object (fields and methods); the double-underscore attributes of [object] are not listed. A node object is known by its
    name; every node given to a graph is taken to be fresh (no [adjacency_list] argument, not taken from another graph); [data] is not modelled.
    Costs are integers. Only the Python backend is modelled. *)
From Coq Require Import Strings.String Strings.Ascii.
From Verif Require Import Base DsfModel.
Import List.

Notation sdget := (dget String.eqb).
Notation sdset := (dset String.eqb).

Definition mem (x : string) (l : list string) : bool := existsb (String.eqb x) l.
(** dict.pop(k, None) / delattr on an instance dict *)
Definition dpop {V} (t : list (string * V)) (k : string) : list (string * V) := filter (fun x => negb (String.eqb k (fst x))) t.
(** list.remove(x): the first occurrence, ValueError if there is none *)
Fixpoint py_remove (l : list string) (x : string) : res (list string) :=
  match l with
  | [] => Raise ValueError
  | y :: l' => if String.eqb x y then Ret l' else (r <- py_remove l' x ;; Ret (y :: r))
  end.

(** the key of an edge in edge_weights: source.name + "_" + target.name (adjacency_list.py 88, 93, 100; adjacency_matrix.py 87, 94, 100) *)
Definition ekey (u v : string) : string := String.append u (String.append "_" v).
(** GraphEdge: source.name, target.name, value (misc_util.py 493-507) *)
Definition edge : Type := string * string * Z.
Definition e_src (e : edge) : string := fst (fst e).
Definition e_tgt (e : edge) : string := snd (fst e).
Definition e_val (e : edge) : Z := snd e.

(** ** AdjacencyListGraphNode (misc_util.py 374-436): instance attributes created for adjacent nodes, and the list [adjacent] *)
Record node := mknode { n_attrs : list string; n_adjacent : list string }.
(** attributes every AdjacencyListGraphNode has *)
Definition node_reserved : list string :=
  ["name"; "data"; "adjacent"; "_impl"; "methods"; "add_adjacent_node"; "remove_adjacent_node"]%string.
Definition node_hasattr (n : node) (x : string) : bool := mem x (n_attrs n) || mem x node_reserved.
(** delattr(node, name): AttributeError unless it is an instance attribute created for an adjacent node *)
Definition node_delattr (n : node) (x : string) : res node :=
  if mem x (n_attrs n) then Ret (mknode (filter (fun y => negb (String.eqb x y)) (n_attrs n)) (n_adjacent n)) else Raise AttributeError.
(** add_adjacent_node (misc_util.py 415-425); setting .data of a reserved attribute raises AttributeError *)
Definition add_adjacent_node (n : node) (x : string) : res node :=
  if node_hasattr n x then (if mem x (n_attrs n) then Ret n else Raise AttributeError)
  else Ret (mknode (n_attrs n ++ [x]) (n_adjacent n ++ [x])).
(** remove_adjacent_node (misc_util.py 427-435) *)
Definition remove_adjacent_node (n : node) (x : string) : res node :=
  if negb (node_hasattr n x) then Raise ValueError
  else
    adj <- py_remove (n_adjacent n) x ;;
    node_delattr (mknode (n_attrs n) adj) x.

(** ** AdjacencyList *)
Record al := mkal { al_vertices : list string; al_nodes : list (string * node); al_weights : list (string * edge) }.
(** attributes every AdjacencyList has *)
Definition al_reserved : list string :=
  ["vertices"; "edge_weights"; "_impl"; "methods"; "is_adjacent"; "num_vertices"; "num_edges"; "neighbors"; "add_vertex"; "remove_vertex";
   "add_edge"; "get_edge"; "remove_edge"]%string.
Definition al_hasattr (g : al) (x : string) : bool := match sdget (al_nodes g) x with Some _ => true | None => mem x al_reserved end.
(** self.__getattribute__(name) where a node is needed (a reserved attribute is not a node; its later use raises AttributeError) *)
Definition al_getattr (g : al) (x : string) : res node := match sdget (al_nodes g) x with Some n => Ret n | None => Raise AttributeError end.
(** mutation of the node object that [x] refers to *)
Definition al_setnode (g : al) (x : string) (n : node) : al := mkal (al_vertices g) (sdset (al_nodes g) x n) (al_weights g).

(** __new__ (adjacency_list.py 19-29) *)
Definition al_new (names : list string) : al :=
  mkal names (fold_left (fun d v => sdset d v (mknode [] [])) names []) [].
(** is_adjacent (42-44) *)
Definition al_is_adjacent (g : al) (node1 node2 : string) : res bool := n <- al_getattr g node1 ;; Ret (node_hasattr n node2).
(** num_vertices (46-47) *)
Definition al_num_vertices (g : al) : Z := len (al_vertices g).
(** neighbors (52-54); a node is returned as its name *)
Definition al_neighbors (g : al) (node : string) : res (list string) :=
  n <- al_getattr g node ;;
  forM (n_adjacent n) (fun name acc => al_getattr g name ;;; Ret (acc ++ [name])) [].
(** num_edges (49-50) *)
Definition al_num_edges (g : al) : res Z :=
  forM (al_vertices g) (fun v acc => l <- al_neighbors g v ;; Ret (acc + len l)) 0.
(** add_vertex (56-59) *)
Definition al_add_vertex (g : al) (name : string) : al :=
  if negb (al_hasattr g name) then
    mkal (al_vertices g ++ [name]) (sdset (al_nodes g) name (mknode [] [])) (al_weights g)
  else g.
(** remove_vertex (61-68) *)
Definition al_remove_vertex (g : al) (name : string) : res al :=
  match sdget (al_nodes g) name with
  | None => Raise AttributeError
  | Some _ =>
    vs <- py_remove (al_vertices g) name ;;
    forM vs (fun nd g =>
      node_obj <- al_getattr g nd ;;
      if node_hasattr node_obj name then
        node_obj <- node_delattr node_obj name ;;
        adj <- py_remove (n_adjacent node_obj) name ;;
        Ret (al_setnode g nd (mknode (n_attrs node_obj) adj))
      else Ret g) (mkal vs (dpop (al_nodes g) name) (al_weights g))
  end.
(** add_edge (70-89) *)
Definition al_add_edge (g : al) (source target : string) (cost : option Z) : res al :=
  if negb (al_hasattr g source) then Raise ValueError
  else if negb (al_hasattr g target) then Raise ValueError
  else
    ns <- al_getattr g source ;;
    _ <- al_getattr g target ;;
    ns <- add_adjacent_node ns target ;;
    let g := al_setnode g source ns in
    match cost with
    | Some c => Ret (mkal (al_vertices g) (al_nodes g) (sdset (al_weights g) (ekey source target) (source, target, c)))
    | None => Ret g
    end.
(** get_edge (91-94) *)
Definition al_get_edge (g : al) (source target : string) : option edge := sdget (al_weights g) (ekey source target).
(** remove_edge (96-101) *)
Definition al_remove_edge (g : al) (source target : string) : res al :=
  ns <- al_getattr g source ;;
  _ <- al_getattr g target ;;
  ns <- remove_adjacent_node ns target ;;
  let g := al_setnode g source ns in
  Ret (mkal (al_vertices g) (al_nodes g) (dpop (al_weights g) (ekey source target))).

(** ** AdjacencyMatrix *)
Record am := mkam { am_vertices : list string; am_matrix : list (string * list (string * bool)); am_weights : list (string * edge) }.
(** __new__ (adjacency_matrix.py 20-32) *)
Definition am_new (names : list string) : am :=
  mkam names (fold_left (fun d v => sdset d v []) names []) [].
Definition am_row (g : am) (node : string) : list (string * bool) := match sdget (am_matrix g) node with Some r => r | None => [] end.
(** is_adjacent (42-45) *)
Definition am_is_adjacent (g : am) (node1 node2 : string) : bool :=
  match sdget (am_row g node1) node2 with Some b => b | None => false end.
(** num_vertices (47-48) *)
Definition am_num_vertices (g : am) : Z := len (am_vertices g).
(** num_edges (50-51) *)
Definition am_num_edges (g : am) : Z := fold_left (fun acc r => acc + len (snd r)) (am_matrix g) 0.
(** neighbors (53-61); __getattribute__ finds the nodes given to the constructor *)
Definition am_neighbors (g : am) (node : string) : res (list string) :=
  forM (am_row g node) (fun '(nd, presence) acc =>
    if presence : bool then (if mem nd (am_vertices g) then Ret (acc ++ [nd]) else Raise AttributeError) else Ret acc) [].
(** add_edge (71-90) *)
Definition am_add_edge (g : am) (source target : string) (cost : option Z) : res am :=
  match sdget (am_matrix g) source with
  | None => Raise ValueError
  | Some row =>
    match sdget (am_matrix g) target with
    | None => Raise ValueError
    | Some _ =>
      let m := sdset (am_matrix g) source (sdset row target true) in
      match cost with
      | Some c => Ret (mkam (am_vertices g) m (sdset (am_weights g) (ekey source target) (source, target, c)))
      | None => Ret (mkam (am_vertices g) m (am_weights g))
      end
    end
  end.
(** get_edge (92-95) *)
Definition am_get_edge (g : am) (source target : string) : option edge := sdget (am_weights g) (ekey source target).
(** remove_edge (97-100) *)
Definition am_remove_edge (g : am) (source target : string) : res am :=
  match sdget (am_matrix g) source with
  | None => Raise KeyError
  | Some row =>
    Ret (mkam (am_vertices g) (sdset (am_matrix g) source (sdset row target false)) (dpop (am_weights g) (ekey source target)))
  end.

(** ** Histories: a call that raises leaves the graph as it was *)
Inductive gop := GAddV (n : string) | GRemV (n : string) | GAddE (u v : string) (cost : option Z) | GRemE (u v : string).
Definition al_call (g : al) (o : gop) : res al :=
  match o with
  | GAddV n => Ret (al_add_vertex g n)
  | GRemV n => al_remove_vertex g n
  | GAddE u v c => al_add_edge g u v c
  | GRemE u v => al_remove_edge g u v
  end.
(** add_vertex and remove_vertex (adjacency_matrix.py 63-69) raise NotImplementedError *)
Definition am_call (g : am) (o : gop) : res am :=
  match o with
  | GAddV n => Raise NotImplementedError
  | GRemV n => Raise NotImplementedError
  | GAddE u v c => am_add_edge g u v c
  | GRemE u v => am_remove_edge g u v
  end.
Definition settle {G} (g : G) (r : res G) : res G := match r with Ret g' => Ret g' | Raise _ => Ret g | OutOfFuel => OutOfFuel end.
Definition al_run (names : list string) (ops : list gop) : res al := forM ops (fun o g => settle g (al_call g o)) (al_new names).
Definition am_run (names : list string) (ops : list gop) : res am := forM ops (fun o g => settle g (am_call g o)) (am_new names).

(** what the algorithms read of a graph: graph.vertices, graph.neighbors(v), graph.edge_weights *)
Record gview := mkgv { gv_vertices : list string; gv_neighbors : string -> res (list string); gv_weights : list (string * edge) }.
Definition al_view (g : al) : gview := mkgv (al_vertices g) (al_neighbors g) (al_weights g).
Definition am_view (g : am) : gview := mkgv (am_vertices g) (am_neighbors g) (am_weights g).
