(** Specification vocabulary for prim: undirected priced graphs and components. *)
From Coq Require Import Strings.String.
From Verif Require Import Base DsfSpec GraphModel GraphSpec MstSpec.
Import List.

(** every edge has a cost and occurs in both directions with the same cost *)
Definition undirected (G : dg) : Prop := forall u v o, In (u, v, o) (snd G) -> exists c, o = Some c /\ In (v, u, Some c) (snd G).
(** [C] holds the edges of [E] in the connected component of [s] *)
Definition component (E : list (string * string * Z)) (s : string) (C : list (string * string * Z)) : Prop :=
  forall u v c, In (u, v, c) C <-> In (u, v, c) E /\ linked E s u.
