(** Model of breadth_first_search_parallel (pydatastructs/graphs/algorithms.py 193-227).
    [Executor.submit(..).result()] waits for each job before the next one is submitted, so the jobs of a layer run one after another, in the
    order in which Python iterates over the set [layers[layer]]: that order is the parameter [order].
    [visited] has keys of two kinds: names (strings) and node objects. Node objects compare by identity (utils/misc_util.py 43-50 define no
    __eq__), so a node object is never equal to a name. *)
From Coq Require Import Strings.String.
From Verif Require Import Base DsfModel GraphModel SearchGraphModel SccModel.
Import List.

Inductive vkey := VName (n : string) | VNode (n : string).
Definition vkey_eqb (a b : vkey) : bool := match a, b with VName x, VName y | VNode x, VNode y => String.eqb x y | _, _ => false end.
(** visited.get(k, False) (200) and visited[k] = True (203): the keys set so far *)
Definition vget (visited : list vkey) (k : vkey) : bool := existsb (vkey_eqb k) visited.

(** _generate_layer (193-207): the new next_layer, visited and calls, and the status *)
Definition generate_layer (g : gview) (op : operation) (curr_node : string) (next_layer : list string) (visited : list vkey) (calls : list (string * string))
  : res (list string * list vkey * list (string * string) * bool) :=
  next_nodes <- gv_neighbors g curr_node ;;
  match next_nodes with
  | _ :: _ => forM next_nodes (fun next_node '(next_layer, visited, calls, status) =>
      if negb (vget visited (VNode next_node)) then
        let '(calls, status) := if status : bool then (calls ++ [(curr_node, next_node)], op calls curr_node next_node) else (calls, false) in
        Ret (set_add next_layer next_node, VName next_node :: visited, calls, status)
      else Ret (next_layer, visited, calls, status)) (next_layer, visited, calls, true)
  | [] => Ret (next_layer, visited, calls ++ [(curr_node, EmptyString)], op calls curr_node EmptyString)
  end.
(** one pass of the loop over the layers (214-225); [status] is the one of the last job *)
Definition par_layer (order : list string -> list string) (g : gview) (op : operation) (layer : list string) (visited : list vkey) (calls : list (string * string))
  : res (list string * list vkey * list (string * string) * bool) :=
  forM (order layer) (fun node '(next_layer, visited, calls, _) => generate_layer g op node next_layer visited calls) ([], visited, calls, true).
(** _breadth_first_search_parallel_adjacency_list (209-225), _adjacency_matrix (227) *)
Definition bfs_parallel (fuel : nat) (order : list string -> list string) (g : gview) (source_node : string) (op : operation) : res (list (string * string)) :=
  while_loop fuel (fun '(layer, visited, calls) =>
    match layer with
    | [] => Ret (Break calls)
    | _ =>
      ' (next_layer, visited, calls, status) <- par_layer order g op layer visited calls ;;
      if negb status then Ret (Break calls) else Ret (Next (next_layer, visited, calls))
    end) ([source_node], [VName source_node], []).
