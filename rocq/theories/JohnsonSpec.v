(** Specification for johnson (C97). *)
From Coq Require Import Strings.String.
From Verif Require Import Base DsfModel GraphModel GraphSpec.
Import List.

(** the entry of a table at (u, v) *)
Definition entry {A} (t : list (string * list (string * A))) (u v : string) : option A := match sdget t u with Some row => sdget row v | None => None end.
(** [h v] is the least cost of a walk that ends at [v] (wherever it starts) *)
Definition potential (G : dg) (h : string -> Z) : Prop :=
  forall v, In v (fst G) -> (exists u n, In u (fst G) /\ cwalk G u n (h v) v) /\ forall u n w, In u (fst G) -> cwalk G u n w v -> h v <= w.
(** the same digraph with the cost of every edge u -> v raised by h u - h v *)
Definition reweighted (G : dg) (h : string -> Z) : dg := (fst G, map (fun e => (fst e, option_map (fun c => c + (h (fst (fst e)) - h (snd (fst e)))) (snd e))) (snd G)).
Definition has_negative_cycle (G : dg) : Prop := exists v n w, cwalk G v (S n) w v /\ w < 0.
(** the digraph with the vertex [q] added and edges of cost 0 from it to all others *)
Definition with_source (G : dg) (q : string) : dg := (fst G ++ [q], snd G ++ map (fun v => (q, v, Some 0)) (fst G)).
