(** Model of strongly_connected_components (pydatastructs/graphs/algorithms.py 498-587) and find_bridges (1286-1386).
    Recursive functions run on explicit fuel; Python's recursion limit is not modelled. *)
From Coq Require Import Strings.String Strings.Ascii.
From Verif Require Import Base DsfModel GraphModel PathModel.
Import List.

(** set.add; a set is the list of its elements *)
Definition set_add (s : list string) (x : string) : list string := if mem x s then s else s ++ [x].

(** ** _tarjan_dfs (546-570). The Stack (LIFO, C06) is a list with the top first; [index] is a one-element list in the code. *)
Record tj := mktj { t_index : Z; t_stack : list string; t_ind : list (string * Z); t_low : list (string * Z); t_on : list (string * bool); t_comps : list (list string) }.
(** while stack: (562-568); the component and the state after it *)
Fixpoint tj_pop (stack : list string) (on : list (string * bool)) (component : list string) (u : string) : list string * list (string * bool) * list string :=
  match stack with
  | [] => (stack, on, component)
  | w :: stack =>
    let on := sdset on w false in
    let component := set_add component w in
    if String.eqb w u then (stack, on, component) else tj_pop stack on component u
  end.
Fixpoint tarjan_dfs (fuel : nat) (g : gview) (u : string) (st : tj) : res tj :=
  match fuel with
  | O => OutOfFuel
  | S f =>
    let st := mktj (t_index st + 1) (u :: t_stack st) (sdset (t_ind st) u (t_index st)) (sdset (t_low st) u (t_index st)) (sdset (t_on st) u true) (t_comps st) in
    neighbors <- gv_neighbors g u ;;
    st <- forM neighbors (fun v st =>
      iv <- dgetE (t_ind st) v ;;
      if iv =? -1 then
        st <- tarjan_dfs f g v st ;;
        lu <- dgetE (t_low st) u ;; lv <- dgetE (t_low st) v ;;
        Ret (mktj (t_index st) (t_stack st) (t_ind st) (sdset (t_low st) u (Z.min lu lv)) (t_on st) (t_comps st))
      else
        ov <- dgetE (t_on st) v ;;
        if ov : bool then
          lu <- dgetE (t_low st) u ;; lv <- dgetE (t_low st) v ;;
          Ret (mktj (t_index st) (t_stack st) (t_ind st) (sdset (t_low st) u (Z.min lu lv)) (t_on st) (t_comps st))
        else Ret st) st ;;
    lu <- dgetE (t_low st) u ;; iu <- dgetE (t_ind st) u ;;
    if lu =? iu then
      let '(stack, on, component) := tj_pop (t_stack st) (t_on st) [] u in
      Ret (mktj (t_index st) stack (t_ind st) (t_low st) on (t_comps st ++ [component]))
    else Ret st
  end.
(** _strongly_connected_components_tarjan_adjacency_list (572-586), _adjacency_matrix (588) *)
Definition tarjan (g : gview) : res (list (list string)) :=
  let st := fold_left (fun st u => mktj (t_index st) (t_stack st) (sdset (t_ind st) u (-1)) (sdset (t_low st) u (-1)) (sdset (t_on st) u false) (t_comps st))
              (gv_vertices g) (mktj 0 [] [] [] [] []) in
  st <- forM (gv_vertices g) (fun u st =>
    iu <- dgetE (t_ind st) u ;;
    if iu =? -1 then tarjan_dfs (S (length (gv_vertices g))) g u st else Ret st) st ;;
  Ret (t_comps st).

(** ** kosaraju (498-541). Lists used as stacks have the top first; [top is stack[-1]] compares names (the only other names pushed
    are unvisited, so different from [top]). *)
Definition is_visited (d : list (string * bool)) (x : string) : bool := match sdget d x with Some b => b | None => false end.
(** _visit (498-511): visited, incoming, L *)
Definition kos_visit (fuel : nat) (g : gview) (vertex : string) (st : list (string * bool) * list (string * list string) * list string) : res (list (string * bool) * list (string * list string) * list string) :=
  while_loop fuel (fun '(stack, visited, incoming, L) =>
    match stack with
    | [] => Ret (Break (visited, incoming, L))
    | top :: _ =>
      ' (stack, visited, incoming) <- (if negb (is_visited visited top) then
          let visited := sdset visited top true in
          neighbors <- gv_neighbors g top ;;
          forM neighbors (fun node '(stack, visited, incoming) =>
            let incoming := sdset incoming node ((match sdget incoming node with Some l => l | None => [] end) ++ [top]) in
            Ret (if negb (is_visited visited node) then node :: stack else stack, visited, incoming)) (stack, visited, incoming)
        else Ret (stack, visited, incoming)) ;;
      match stack with
      | top' :: stack' => if String.eqb top top' then Ret (Next (stack', visited, incoming, L ++ [top'])) else Ret (Next (stack, visited, incoming, L))
      | [] => Raise IndexError
      end
    end) (let '(visited, incoming, L) := st in ([vertex], visited, incoming, L)).
(** _assign (513-524): assigned, component *)
Definition kos_assign (fuel : nat) (incoming : list (string * list string)) (u : string) (st : list (string * bool) * list string) : res (list (string * bool) * list string) :=
  while_loop fuel (fun '(stack, assigned, component) =>
    match stack with
    | [] => Ret (Break (assigned, component))
    | top :: _ =>
      ' (stack, assigned, component) <- (if negb (is_visited assigned top) then
          let assigned := sdset assigned top true in
          let component := set_add component top in
          l <- dgetE incoming top ;;
          forM l (fun u '(stack, assigned, component) => Ret (if negb (is_visited assigned u) then u :: stack else stack, assigned, component)) (stack, assigned, component)
        else Ret (stack, assigned, component)) ;;
      match stack with
      | top' :: stack' => if String.eqb top top' then Ret (Next (stack', assigned, component)) else Ret (Next (stack, assigned, component))
      | [] => Raise IndexError
      end
    end) (let '(assigned, component) := st in ([u], assigned, component)).
(** an upper bound on the number of rounds of these loops: each round pops, or visits a vertex and pushes fewer names than there are edges *)
Definition kos_fuel (g : gview) : nat := S (S (length (gv_vertices g) * S (S (length (gv_vertices g))))).
(** _strongly_connected_components_kosaraju_adjacency_list (526-541), _adjacency_matrix (543) *)
Definition kosaraju (g : gview) : res (list (list string)) :=
  ' (visited, incoming, L) <- forM (gv_vertices g) (fun u '(visited, incoming, L) =>
    if negb (is_visited visited u) then kos_visit (kos_fuel g) g u (visited, incoming, L) else Ret (visited, incoming, L)) ([], [], []) ;;
  ' (_, components) <- forM (rev L) (fun u '(assigned, components) =>
    ' (assigned, comp) <- (if negb (is_visited assigned u) then kos_assign (kos_fuel g) incoming u (assigned, []) else Ret (assigned, [])) ;;
    Ret (assigned, match comp with [] => components | _ => components ++ [comp] end)) ([], []) ;;
  Ret components.

(** ** find_bridges (1286-1386): the arrays visited, disc, low, parent (lists of [n] cells), bridges_idx, time *)
Record br := mkbr { r_vis : list bool; r_disc : list Z; r_low : list Z; r_par : list Z; r_bridges : list (Z * Z); r_time : Z }.
(** the inner function dfs (1353-1367) *)
Fixpoint bridge_dfs (fuel : nat) (n_adj : list (list Z)) (u : Z) (st : br) : res br :=
  match fuel with
  | O => OutOfFuel
  | S f =>
    vis <- aset (r_vis st) u true ;;
    low <- aset (r_low st) u (r_time st) ;;
    disc <- aset (r_disc st) u (r_time st) ;;
    let st := mkbr vis disc low (r_par st) (r_bridges st) (r_time st + 1) in
    nbrs <- lget n_adj u ;;
    forM nbrs (fun v st =>
      vv <- lget (r_vis st) v ;;
      if negb vv then
        par <- aset (r_par st) v u ;;
        st <- bridge_dfs f n_adj v (mkbr (r_vis st) (r_disc st) (r_low st) par (r_bridges st) (r_time st)) ;;
        lu <- lget (r_low st) u ;; lv <- lget (r_low st) v ;;
        low <- aset (r_low st) u (Z.min lu lv) ;;
        lv <- lget low v ;; du <- lget (r_disc st) u ;;
        Ret (mkbr (r_vis st) (r_disc st) low (r_par st) (if du <? lv then r_bridges st ++ [(u, v)] else r_bridges st) (r_time st))
      else
        pu <- lget (r_par st) u ;;
        if negb (v =? pu) then
          lu <- lget (r_low st) u ;; dv <- lget (r_disc st) v ;;
          low <- aset (r_low st) u (Z.min lu dv) ;;
          Ret (mkbr (r_vis st) (r_disc st) low (r_par st) (r_bridges st) (r_time st))
        else Ret st) st
  end.
(** Python's <= on strings (by code point, String.leb) and on tuples of two strings *)
Definition pair_leb (p q : string * string) : bool :=
  if String.eqb (fst p) (fst q) then String.leb (snd p) (snd q) else String.leb (fst p) (fst q).
(** list.sort(): the stable sort, as insertion sort *)
Fixpoint pair_insert (p : string * string) (l : list (string * string)) : list (string * string) :=
  match l with [] => [p] | q :: l' => if pair_leb p q then p :: l else q :: pair_insert p l' end.
(** mapping[v] (1337): the last index of v; mapping and inv_mapping are dicts built by enumerate *)
Definition br_mapping (vs : list string) : list (string * Z) := fst (fold_left (fun '(d, i) v => (sdset d v i, i + 1)) vs ([], 0)).
Definition br_inv (m : list (string * Z)) (i : Z) : res string :=
  match find (fun e => snd e =? i) m with Some e => Ret (fst e) | None => Raise KeyError end.
Definition find_bridges (g : gview) : res (list (string * string)) :=
  let vs := gv_vertices g in
  let n := len vs in
  let mapping := br_mapping vs in
  adj <- forM vs (fun v d => l <- gv_neighbors g v ;; a <- dgetE d v ;; Ret (sdset d v (a ++ l))) (fold_left (fun d v => sdset d v []) vs []) ;;
  n_adj <- forM vs (fun v n_adj =>
    idx_v <- dgetE mapping v ;;
    l <- dgetE adj v ;;
    forM l (fun u n_adj => idx_u <- dgetE mapping u ;; row <- lget n_adj idx_v ;; aset n_adj idx_v (row ++ [idx_u])) n_adj) (repeat [] (length vs)) ;;
  let st := mkbr (repeat false (length vs)) (repeat 0 (length vs)) (repeat 0 (length vs)) (repeat (-1) (length vs)) [] 0 in
  st <- forM (zrange 0 n) (fun i st => vi <- lget (r_vis st) i ;; if negb vi then bridge_dfs (S (length vs)) n_adj i st else Ret st) st ;;
  bridges <- forM (r_bridges st) (fun '(u, v) bridges =>
    a <- br_inv mapping u ;; b <- br_inv mapping v ;;
    Ret (bridges ++ [if String.leb a b then (a, b) else (b, a)])) [] ;;
  Ret (fold_right pair_insert [] bridges).
