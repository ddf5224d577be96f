(** Vocabulary for the C++ backend of graphs: no reference to its maps or loops. *)
From Coq Require Import Strings.String Strings.Ascii.
From Verif Require Import Base GraphModel GraphSpec MstSpec.
Import List.

(** a cost the C++ GraphEdge can hold: None or a 64-bit integer *)
Definition storable (c : option Z) : bool := match c with Some z => (- 2 ^ 63 <=? z) && (z <? 2 ^ 63) | None => true end.
(** what each call should do: as for the Python backend ([dg_step]), except that adding an edge again gives it the new cost, whatever that is *)
Definition cdg_step (G : dg) (o : gop) : dg :=
  let '(V, E) := G in
  match o with
  | GAddE u v c =>
    if mem u V && mem v V && storable c then
      if existsb (same_edge u v) E then (V, map (fun e => if same_edge u v e then (u, v, c) else e) E) else (V, E ++ [(u, v, c)])
    else G
  | _ => dg_step G o
  end.
Definition cdg_run (names : list string) (ops : list gop) : dg := fold_left cdg_step ops (names, []).
(** names without underscore *)
Definition plain (s : string) : Prop := no_underscore s = true.
Definition plain_history (names : list string) (ops : list gop) : Prop := NoDup names /\ Forall plain names /\ Forall (fun o => Forall plain (op_names o)) ops.
(** an order in which a hash map may be iterated *)
Definition some_order {X} (ord : string -> list X -> list X) : Prop := forall n l, Permutation (ord n l) l.
(** the part of a graph whose edges have a non-negative cost *)
Definition nonneg_part (G : dg) : dg := (fst G, filter (fun e => match snd e with Some z => 0 <=? z | None => false end) (snd G)).
(** [p] leads from [v] back to [s] *)
Inductive leads (p : string -> option (option string)) (s : string) : string -> Prop :=
| leads_here : leads p s s
| leads_step v u : p v = Some (Some u) -> leads p s u -> leads p s v.
(** the exception a call raises on the digraph [G], if it raises one *)
Definition call_error (G : dg) (o : gop) : option exn :=
  match o with
  | GAddV n => if mem n (fst G) then Some ValueError else None
  | GRemV n => if mem n (fst G) then None else Some KeyError
  | GAddE u v c => if mem u (fst G) && mem v (fst G) then (if storable c then None else Some SystemError) else Some ValueError
  | GRemE u v => if mem u (fst G) && mem v (fst G) then None else Some KeyError
  end.
(** ** the C++ adjacency matrix: a fixed vertex set. A cost that does not fit a double is refused, but the edge is there. *)
Definition fits (z : Z) : bool := Z.abs z <? 2 ^ 1024 - 2 ^ 970.
Definition mdg_step (G : dg) (o : gop) : dg :=
  match o with
  | GAddE u v (Some z) => dg_step_static G (GAddE u v (if fits z then Some z else None))
  | _ => dg_step_static G o
  end.
Definition mdg_run (names : list string) (ops : list gop) : dg := fold_left mdg_step ops (names, []).
