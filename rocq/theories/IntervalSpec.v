(** Specification of stabbing queries. *)
From Verif Require Import Base.
(** the closed segment with end points [fst s] and [snd s], in either order *)
Definition in_segment (s : Z * Z) (x : Z) : Prop := fst s <= x <= snd s \/ snd s <= x <= fst s.
