(** Model of breadth_first_search, depth_first_search and topological_sort
    (pydatastructs/graphs/algorithms.py 103-125, 722-744, 1074-1098). *)
From Coq Require Import Strings.String Strings.Ascii.
From Verif Require Import Base DsfModel GraphModel.
Import List.

(** [operation(curr_node, next_node)]: its truth value may depend on the calls made so far; it does not change the graph.
    Extra arguments are part of the closure. *)
Definition operation : Type := list (string * string) -> string -> string -> bool.

(** state of a search: queue or stack, visited, the calls of [operation] made so far, and whether a call returned a falsy value *)
Record sstate := mkss { ss_queue : list string; ss_visited : list (string * bool); ss_calls : list (string * string); ss_stopped : bool }.

(** the loop over next_nodes (algorithms.py 113-119 / 732-738); [push] appends to the queue or stack *)
Definition visit_next (push : list string -> string -> list string) (op : operation) (curr_node : string) (next_nodes : list string) (st : sstate) : res sstate :=
  forM next_nodes (fun next_node st =>
    if ss_stopped st then Ret st
    else match sdget (ss_visited st) next_node with
    | Some true => Ret st
    | _ =>
      let status := op (ss_calls st) curr_node next_node in
      let calls := ss_calls st ++ [(curr_node, next_node)] in
      if negb status then Ret (mkss (ss_queue st) (ss_visited st) calls true)
      else Ret (mkss (push (ss_queue st) next_node) (sdset (ss_visited st) next_node true) calls false)
    end) st.

(** the searches (103-123 / 722-742): the calls made, in order. [push] is the only difference between the two
    (popping is from the front of the list in both) *)
Definition search_loop (push : list string -> string -> list string) (g : gview) (op : operation) (fuel : nat) (st : sstate) : res (list (string * string)) :=
  while_loop fuel (fun st =>
    match ss_queue st with
    | [] => Ret (Break (ss_calls st))
    | curr_node :: rest =>
      next_nodes <- gv_neighbors g curr_node ;;
      let st := mkss rest (ss_visited st) (ss_calls st) (ss_stopped st) in
      match next_nodes with
      | _ :: _ =>
        st <- visit_next push op curr_node next_nodes st ;;
        if ss_stopped st then Ret (Break (ss_calls st)) else Ret (Next st)
      | [] =>
        let status := op (ss_calls st) curr_node EmptyString in
        let calls := ss_calls st ++ [(curr_node, EmptyString)] in
        if negb status then Ret (Break calls) else Ret (Next (mkss rest (ss_visited st) calls false))
      end
    end) st.
Definition search (push : list string -> string -> list string) (g : gview) (source_node : string) (op : operation) : res (list (string * string)) :=
  search_loop push g op (S (S (length (gv_vertices g)))) (mkss [source_node] [(source_node, true)] [] false).
(** _breadth_first_search_adjacency_list (103-123), _adjacency_matrix (125): append at the right, popleft *)
Definition breadth_first_search (g : gview) := search (fun q x => q ++ [x]) g.
(** _depth_first_search_adjacency_list (722-742), _adjacency_matrix (744): append and pop at the right; the list here has the top first *)
Definition depth_first_search (g : gview) := search (fun q x => x :: q) g.

(** ** _kahn_adjacency_list (1074-1098). The graph is changed; the result is the order and the graph after the call.
    [in_degree[x] -= 1] on a missing key is a KeyError. *)
Definition kahn (g : al) : res (list string * al) :=
  let in_degree := fold_left (fun d u => sdset d u 0) (al_vertices g) [] in
  in_degree <- forM (al_vertices g) (fun u d =>
    l <- al_neighbors g u ;;
    forM l (fun v d => match sdget d v with Some k => Ret (sdset d v (k + 1)) | None => Raise KeyError end) d) in_degree ;;
  ' (S0, in_degree) <- forM (al_vertices g) (fun u '(q, d) =>
    match sdget d u with Some k => if k =? 0 then Ret (q ++ [u], dpop d u) else Ret (q, d) | None => Raise KeyError end) ([], in_degree) ;;
  ' (L, g, in_degree) <- while_loop (S (length (al_vertices g))) (fun '(q, d, g, L) =>
    match q with
    | [] => Ret (Break (L, g, d))
    | n :: q =>
      l <- al_neighbors g n ;;
      ' (q, d, g) <- forM l (fun m '(q, d, g) =>
        g <- al_remove_edge g n m ;;
        match sdget d m with
        | None => Raise KeyError
        | Some k => if k - 1 =? 0 then Ret (q ++ [m], dpop (sdset d m (k - 1)) m, g) else Ret (q, sdset d m (k - 1), g)
        end) (q, d, g) ;;
      Ret (Next (q, d, g, L ++ [n]))
    end) (S0, in_degree, g, []) ;;
  match in_degree with _ :: _ => Raise ValueError | [] => Ret (L, g) end.
