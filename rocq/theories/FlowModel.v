(** Model of max_flow (pydatastructs/graphs/algorithms.py 1187-1284). The queue is collections.deque (30), here a list with the front first.
    Amounts are [option Z] with None for float('inf') where inf can occur. Loops that need not terminate run on explicit fuel; Python's
    recursion limit is not modelled. *)
From Coq Require Import Strings.String Strings.Ascii.
From Verif Require Import Base DsfModel GraphModel PathModel.
Import List.

(** flow_passed: a dict from pairs of names to amounts; [.get((u, v), 0)] and [flow_passed[(u, v)] = x] *)
Definition fmap : Type := list (string * string * Z).
Fixpoint fget (f : fmap) (u v : string) : Z :=
  match f with [] => 0 | (a, b, x) :: f => if String.eqb u a && String.eqb v b then x else fget f u v end.
Definition fset (f : fmap) (u v : string) (x : Z) : fmap := (u, v, x) :: f.
(** graph.get_edge(u, v).value: AttributeError when get_edge returns None (adjacency_list.py 106-108, adjacency_matrix.py 71-73) *)
Definition capacity (g : gview) (u v : string) : res Z :=
  match sdget (gv_weights g) (ekey u v) with Some e => Ret (e_val e) | None => Raise AttributeError end.
Definition omin (x y : option Z) : option Z := match x, y with None, y => y | x, None => x | Some a, Some b => Some (Z.min a b) end.

(** state of the search: bfs_queue, parent, currentPathC, and the amount returned early, if it was *)
Record mf := mkmf { m_queue : list string; m_parent : list (string * string); m_cap : list (string * option Z); m_ret : option (option Z) }.
(** the body of the loop over next_nodes (1197-1206). parent values are names, so [parent.get(x, False) is False] means: no entry *)
Definition mf_visit (g : gview) (sink_node : string) (flow_passed : fmap) (for_dinic : bool) (curr_node next_node : string) (st : mf) : res mf :=
  match m_ret st with
  | Some _ => Ret st
  | None =>
    cap <- capacity g curr_node next_node ;;
    let fp := fget flow_passed curr_node next_node in
    if negb (cap =? 0) && (match sdget (m_parent st) next_node with None => true | Some _ => false end) && (0 <? cap - fp) then
      c <- dgetE (m_cap st) curr_node ;;
      let next_flow := omin c (Some (cap - fp)) in
      let parent := sdset (m_parent st) next_node curr_node in
      let currentPathC := sdset (m_cap st) next_node next_flow in
      if String.eqb next_node sink_node && negb for_dinic then Ret (mkmf (m_queue st) parent currentPathC (Some next_flow))
      else Ret (mkmf (m_queue st ++ [next_node]) parent currentPathC None)
    else Ret st
  end.
(** _breadth_first_search_max_flow (1187-1208); each vertex gets a parent once, so the queue is used up after |V| + 2 rounds *)
Definition mf_bfs (g : gview) (source_node sink_node : string) (flow_passed : fmap) (for_dinic : bool) : res (option Z * list (string * string)) :=
  while_loop (S (S (S (length (gv_vertices g))))) (fun st =>
    match m_queue st with
    | [] => Ret (Break (Some 0, m_parent st))
    | curr_node :: rest =>
      next_nodes <- gv_neighbors g curr_node ;;
      st <- forM next_nodes (mf_visit g sink_node flow_passed for_dinic curr_node) (mkmf rest (m_parent st) (m_cap st) None) ;;
      match m_ret st with
      | Some next_flow => Ret (Break (next_flow, m_parent st))
      | None => Ret (Next st)
      end
    end) (mkmf [source_node] [] [(source_node, None)] None).

(** the walk back from the sink (1218-1225) *)
Definition mf_augment (fuel : nat) (source : string) (parent : list (string * string)) (new_flow : Z) (sink : string) (flow_passed : fmap) : res fmap :=
  while_loop fuel (fun '(current, flow_passed) =>
    if String.eqb current source then Ret (Break flow_passed)
    else
      prev <- dgetE parent current ;;
      let flow_passed := fset flow_passed prev current (fget flow_passed prev current + new_flow) in
      let flow_passed := fset flow_passed current prev (fget flow_passed current prev - new_flow) in
      Ret (Next (prev, flow_passed))) (sink, flow_passed).
(** _max_flow_edmonds_karp_ (1211-1227). The walk back is over as many vertices as the search found, at most. A search never returns inf:
    next_flow is a minimum with a finite amount; the model stops if it did *)
Definition edmonds_karp (fuel : nat) (g : gview) (source sink : string) : res Z :=
  while_loop fuel (fun '(m_flow, flow_passed) =>
    ' (new_flow, parent) <- mf_bfs g source sink flow_passed false ;;
    match new_flow with
    | None => OutOfFuel
    | Some new_flow =>
      if new_flow =? 0 then Ret (Break m_flow)
      else
        flow_passed <- mf_augment (S (S (length parent))) source parent new_flow sink flow_passed ;;
        Ret (Next (m_flow + new_flow, flow_passed))
    end) (0, []).

(** _depth_first_search_max_flow_dinic (1230-1253): the amount and flow_passed *)
Fixpoint dinic_dfs (fuel : nat) (g : gview) (u : string) (parent : list (string * string)) (sink_node : string) (flow : option Z) (flow_passed : fmap) : res (option Z * fmap) :=
  match fuel with
  | O => OutOfFuel
  | S f =>
    if String.eqb u sink_node then Ret (flow, flow_passed)
    else
      next_nodes <- gv_neighbors g u ;;
      ' (found, flow_passed) <- forM next_nodes (fun next_node '(found, flow_passed) =>
        match found with
        | Some _ => Ret (found, flow_passed)
        | None =>
          cap <- capacity g u next_node ;;
          let fp := fget flow_passed u next_node in
          match sdget parent next_node with
          | Some p =>
            if negb (String.eqb p EmptyString) && String.eqb p u && (0 <? cap - fp) then
              ' (path_flow, flow_passed) <- dinic_dfs f g next_node parent sink_node (omin flow (Some (cap - fp))) flow_passed ;;
              match path_flow with
              | None => OutOfFuel
              | Some path_flow =>
                if 0 <? path_flow then
                  let flow_passed := fset flow_passed u next_node (fget flow_passed u next_node + path_flow) in
                  let flow_passed := fset flow_passed next_node u (fget flow_passed next_node u - path_flow) in
                  Ret (Some path_flow, flow_passed)
                else Ret (None, flow_passed)
              end
            else Ret (None, flow_passed)
          | None => Ret (None, flow_passed)
          end
        end) (None, flow_passed) ;;
      Ret (match found with Some p => Some p | None => Some 0 end, flow_passed)
  end.
(** _max_flow_dinic_ (1256-1273). When source and sink are the same vertex the search returns inf for ever (no fuel is enough) *)
Definition dinic (fuel : nat) (g : gview) (source sink : string) : res Z :=
  while_loop fuel (fun '(max_flow, flow_passed) =>
    ' (_, parent) <- mf_bfs g source sink flow_passed true ;;
    match sdget parent sink with
    | None => Ret (Break max_flow)
    | Some _ =>
      ' (max_flow, flow_passed) <- while_loop fuel (fun '(max_flow, flow_passed) =>
        ' (path_flow, flow_passed) <- dinic_dfs fuel g source parent sink None flow_passed ;;
        match path_flow with
        | None => OutOfFuel
        | Some path_flow => if path_flow <=? 0 then Ret (Break (max_flow, flow_passed)) else Ret (Next (max_flow + path_flow, flow_passed))
        end) (max_flow, flow_passed) ;;
      Ret (Next (max_flow, flow_passed))
    end) (0, []).
(** max_flow (1272-1284): dispatch on the name of the algorithm *)
Definition max_flow (fuel : nat) (g : gview) (source sink algorithm : string) : res Z :=
  if String.eqb algorithm "edmonds_karp" then edmonds_karp fuel g source sink
  else if String.eqb algorithm "dinic" then dinic fuel g source sink
  else Raise NotImplementedError.
