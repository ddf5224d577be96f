(** Specification for dijkstra (C79). *)
From Coq Require Import Strings.String.
From Verif Require Import Base DsfModel GraphModel GraphSpec.
Import List.

(** [dist] and [pred] describe a tree of walks from [s]: every distance is the cost of a walk, and the predecessor of a vertex is the one before it on such a walk *)
Record walk_tree (G : dg) (s : string) (dist : list (string * option Z)) (pred : list (string * option string)) : Prop := {
  at_source : sdget dist s = Some (Some 0);
  all_listed : forall v, In v (fst G) -> (exists o, sdget dist v = Some o) /\ exists p, sdget pred v = Some p;
  real_cost : forall v d, sdget dist v = Some (Some d) -> exists n, cwalk G s n d v;
  last_step : forall v p, In v (fst G) -> sdget pred v = Some (Some p) -> v <> s /\ exists c d, has_cost G p v c /\ sdget dist p = Some (Some d) /\ least_cost G s p d /\ sdget dist v = Some (Some (d + c));
  no_step : forall v, In v (fst G) -> sdget pred v = Some None -> v = s \/ sdget dist v = Some None
}.
(** [dist] holds the cheapest way to every vertex *)
Definition exact_distances (G : dg) (s : string) (dist : list (string * option Z)) : Prop :=
  forall v, In v (fst G) -> exists o, sdget dist v = Some o /\ match o with Some d => least_cost G s v d | None => ~ reachable G s v end.
(** a vertex that is farther from [s] never offers a cheaper way into a vertex *)
Definition no_detour (G : dg) (s : string) : Prop :=
  forall u u' v c c' d d', least_cost G s u d -> least_cost G s u' d' -> has_cost G u v c -> has_cost G u' v c' -> d <= d' -> d + c <= d' + c'.
