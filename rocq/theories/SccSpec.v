(** Specification vocabulary for strongly connected components and bridges. *)
From Coq Require Import Strings.String Sorting.Sorted.
From Verif Require Import Base GraphModel GraphSpec.
Import List.

(** each of [u], [v] can be reached from the other *)
Definition mutual (G : dg) (u v : string) : Prop := reachable G u v /\ reachable G v u.
(** the sets in [comps] are the strongly connected components of [G]: every vertex is in exactly one of them, once, and a set contains with a
    vertex exactly the vertices mutually reachable with it *)
Definition components_of (G : dg) (comps : list (list string)) : Prop :=
  Permutation (concat comps) (fst G) /\
  forall C, In C comps -> C <> [] /\ forall u, In u C -> forall v, In v C <-> mutual G u v.

(** undirected graphs: every edge in both directions *)
Definition undirected (G : dg) : Prop := forall u v, is_edge G u v -> is_edge G v u.
(** [x] and [y] are joined by a walk that does not use the edge between [a] and [b] *)
Inductive linked_without (G : dg) (a b : string) (x : string) : string -> Prop :=
| linked_here : linked_without G a b x x
| linked_step y z : linked_without G a b x y -> is_edge G y z -> ~ (y = a /\ z = b) -> ~ (y = b /\ z = a) -> linked_without G a b x z.
(** removing the edge disconnects its endpoints *)
Definition bridge (G : dg) (a b : string) : Prop := is_edge G a b /\ ~ linked_without G a b a b.
(** Python's order on pairs of strings *)
Definition pair_le (p q : string * string) : Prop :=
  (fst p = fst q /\ String.leb (snd p) (snd q) = true) \/ (fst p <> fst q /\ String.leb (fst p) (fst q) = true).
