(** Specification vocabulary for flows. *)
From Coq Require Import Strings.String.
From Verif Require Import Base GraphModel GraphSpec.
Import List.

(** every edge has a cost (its capacity) and no capacity is negative *)
Definition network (G : dg) : Prop := weighted G /\ forall u v c, has_cost G u v c -> 0 <= c.
(** [f u v] is the net flow from [u] to [v] *)
Definition sum_over (l : list string) (f : string -> Z) : Z := fold_right Z.add 0 (map f l).
Record feasible (G : dg) (s t : string) (f : string -> string -> Z) : Prop := {
  skew : forall u v, f u v = - f v u;
  within : forall u v c, has_cost G u v c -> f u v <= c;
  only_edges : forall u v, ~ is_edge G u v -> f u v <= 0;
  conserved : forall u, In u (fst G) -> u <> s -> u <> t -> sum_over (fst G) (f u) = 0
}.
(** what leaves the source *)
Definition flow_value (G : dg) (s : string) (f : string -> string -> Z) : Z := sum_over (fst G) (f s).
Definition is_max_flow (G : dg) (s t : string) (r : Z) : Prop :=
  (exists f, feasible G s t f /\ flow_value G s f = r) /\ forall f, feasible G s t f -> flow_value G s f <= r.
(** every pipe that neither leaves the source nor enters the sink has a pipe in the opposite direction *)
Definition two_way_inside (G : dg) (s t : string) : Prop :=
  forall u v c, has_cost G u v c -> 0 < c -> u <> s -> v <> t -> exists c', has_cost G v u c' /\ 0 < c'.
