(** Minimum spanning forests of an undirected multigraph given as a list of priced edges. *)
From Coq Require Import Strings.String Strings.Ascii.
From Verif Require Import Base DsfSpec GraphModel GraphSpec.
Import List.

(** the priced edges (u, v, c) of a digraph, each read as an undirected edge *)
Definition priced (G : dg) : list (string * string * Z) :=
  flat_map (fun e => match snd e with Some c => [(fst e, c)] | None => [] end) (snd G).
(** connected by edges of [E], in either direction ([connected] is the equivalence generated by the pairs) *)
Definition linked (E : list (string * string * Z)) : string -> string -> Prop := connected (map fst E).
(** no cycle: without any one of the edges its ends are no longer linked (so no edge occurs twice, and there are no loops) *)
Definition forest (T : list (string * string * Z)) : Prop :=
  forall T1 u v c T2, T = T1 ++ (u, v, c) :: T2 -> ~ linked (T1 ++ T2) u v.
Definition total (T : list (string * string * Z)) : Z := fold_right (fun e n => snd e + n) 0 T.
Definition spanning_forest (E T : list (string * string * Z)) : Prop :=
  incl T E /\ forest T /\ forall x y, linked E x y <-> linked T x y.
Definition minimum_spanning_forest (E T : list (string * string * Z)) : Prop :=
  spanning_forest E T /\ forall F, spanning_forest E F -> total T <= total F.
(** the edge_weights dictionary holds exactly the edges of [T], each in both directions *)
Definition holds_both_ways (W : list (string * edge)) (T : list (string * string * Z)) : Prop :=
  NoDup (map fst W) /\ forall k e, In (k, e) W <-> exists u v c, k = ekey u v /\ e = (u, v, c) /\ (In (u, v, c) T \/ In (v, u, c) T).
