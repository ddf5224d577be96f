(** Specification vocabulary for graphs: digraphs as a list of vertex names and a list of edges with an optional cost. *)
From Coq Require Import Strings.String Strings.Ascii.
From Verif Require Import Base GraphModel.
Import List.

(** ordinary names: non-empty, no underscore, not the name of an attribute of a graph or node object. (The keys of edges are source_target, so
    names with underscores can give two edges the same key. The one name with underscores that is allowed is __q__, the vertex the algorithm
    johnson adds: its keys do not collide with others.) *)
Fixpoint no_underscore (s : string) : bool := match s with EmptyString => true | String c s' => negb (Ascii.eqb c "_"%char) && no_underscore s' end.
Definition no_us (s : string) : bool := (no_underscore s && negb (String.eqb s EmptyString)) || String.eqb s "__q__".
Definition attribute_names : list string := ["vertices"; "methods"; "neighbors"; "matrix"; "name"; "data"; "adjacent"]%string.
Definition ordinary (s : string) : Prop := no_us s = true /\ s <> EmptyString /\ ~ In s attribute_names.

(** an abstract digraph: vertices, and edges in order of insertion with their cost *)
Definition dg : Type := list string * list (string * string * option Z).
Definition dg_edges (G : dg) : list (string * string) := map fst (snd G).
Definition is_edge (G : dg) (u v : string) : Prop := In (u, v) (dg_edges G).
Definition has_cost (G : dg) (u v : string) (c : Z) : Prop := In (u, v, Some c) (snd G).

Definition same_edge (u v : string) (e : string * string * option Z) : bool := String.eqb u (fst (fst e)) && String.eqb v (snd (fst e)).
(** what each call should do *)
Definition dg_step (G : dg) (o : gop) : dg :=
  let '(V, E) := G in
  match o with
  | GAddV n => if mem n V then G else (V ++ [n], E)
  | GRemV n => (filter (fun x => negb (String.eqb n x)) V, filter (fun e => negb (String.eqb n (fst (fst e)) || String.eqb n (snd (fst e)))) E)
  | GAddE u v c =>
    if mem u V && mem v V then
      if existsb (same_edge u v) E
      then (V, map (fun e => if same_edge u v e then (u, v, match c with Some _ => c | None => snd e end) else e) E)
      else (V, E ++ [(u, v, c)])
    else G
  | GRemE u v => (V, filter (fun e => negb (same_edge u v e)) E)
  end.
(** the matrix graph has a fixed vertex set *)
Definition dg_step_static (G : dg) (o : gop) : dg := match o with GAddV _ | GRemV _ => G | _ => dg_step G o end.
Definition dg_run (names : list string) (ops : list gop) : dg := fold_left dg_step ops (names, []).
Definition dg_run_static (names : list string) (ops : list gop) : dg := fold_left dg_step_static ops (names, []).

(** the names a call mentions *)
Definition op_names (o : gop) : list string := match o with GAddV n | GRemV n => [n] | GAddE u v _ | GRemE u v => [u; v] end.
Definition is_remove_vertex (o : gop) : bool := match o with GRemV _ => true | _ => false end.
Definition is_remove_edge (o : gop) : bool := match o with GRemE _ _ => true | _ => false end.

(** a graph object (as the algorithms read it) represents the digraph [G] *)
Definition represents (g : gview) (G : dg) : Prop :=
  gv_vertices g = fst G /\ NoDup (fst G) /\ Forall ordinary (fst G) /\
  NoDup (dg_edges G) /\ (forall u v, is_edge G u v -> In u (fst G) /\ In v (fst G)) /\
  (forall u, In u (fst G) -> exists l, gv_neighbors g u = Ret l /\ NoDup l /\ (forall v, In v l <-> is_edge G u v)).
(** ... and edge_weights holds exactly the costs of the edges of [G] *)
Definition represents_costs (g : gview) (G : dg) : Prop :=
  NoDup (map fst (gv_weights g)) /\
  (forall k e, In (k, e) (gv_weights g) <-> exists u v c, k = ekey u v /\ e = (u, v, c) /\ has_cost G u v c).
(** every edge has a cost *)
Definition weighted (G : dg) : Prop := forall u v, is_edge G u v -> exists c, has_cost G u v c.

(** walks with their number of edges and, for weighted digraphs, their total cost *)
Inductive walk (G : dg) (s : string) : nat -> string -> Prop :=
| walk_nil : walk G s 0 s
| walk_snoc n u v : walk G s n u -> is_edge G u v -> walk G s (S n) v.
Inductive cwalk (G : dg) (s : string) : nat -> Z -> string -> Prop :=
| cwalk_nil : cwalk G s 0 0 s
| cwalk_snoc n w u v c : cwalk G s n w u -> has_cost G u v c -> cwalk G s (S n) (w + c) v.
Definition reachable (G : dg) (s v : string) : Prop := exists n, walk G s n v.
Definition distance (G : dg) (s v : string) (n : nat) : Prop := walk G s n v /\ forall m, walk G s m v -> (n <= m)%nat.

(** no closed walk with at least one edge *)
Definition acyclic (G : dg) : Prop := forall v n, ~ walk G v (S n) v.
(** [L] lists the vertices once each and every edge goes forward *)
Definition linear_extension (G : dg) (L : list string) : Prop :=
  Permutation L (fst G) /\ forall u v, is_edge G u v -> exists a b c, L = a ++ u :: b ++ v :: c.

(** ** Searches: a call log is the list of (current, next) pairs the operation was called with; next is the empty string for a leaf *)
Definition call_log : Type := list (string * string).
(** the vertices discovered: the second components of the calls other than leaf calls *)
Definition discovered (calls : call_log) : list string := filter (fun x => negb (String.eqb x EmptyString)) (map snd calls).
(** the operation that is always truthy *)
Definition yes : call_log -> string -> string -> bool := fun _ _ _ => true.
(** [pre] followed by the calls of [rest] up to and including the first one at which [op] is falsy *)
Fixpoint upto (op : call_log -> string -> string -> bool) (pre rest : call_log) : call_log :=
  match rest with
  | [] => pre
  | (c, n) :: rest' => if op pre c n then upto op (pre ++ [(c, n)]) rest' else pre ++ [(c, n)]
  end.

(** ** Shortest paths *)
(** the least cost of a walk from [s] to [v] is [d] *)
Definition least_cost (G : dg) (s v : string) (d : Z) : Prop := (exists n, cwalk G s n d v) /\ forall n w, cwalk G s n w v -> d <= w.
(** a closed walk of negative cost starts at a vertex that can be reached from [s] *)
Definition negative_cycle_from (G : dg) (s : string) : Prop := exists v n w, reachable G s v /\ cwalk G v (S n) w v /\ w < 0.
Definition no_negative_cycle (G : dg) : Prop := forall v n w, cwalk G v (S n) w v -> 0 <= w.
