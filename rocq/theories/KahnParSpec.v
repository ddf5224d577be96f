(** Specification of the order topological_sort_parallel returns: peel off, again and again, the vertices without a predecessor among those that are left, each time in the order in which the graph lists them. *)
From Coq Require Import Strings.String.
From Verif Require Import Base GraphSpec.
Import List.
Definition arrow (E : list (string * string)) (u v : string) : bool := existsb (fun e => String.eqb (fst e) u && String.eqb (snd e) v) E.
Definition minimal (E : list (string * string)) (V : list string) : list string := filter (fun x => forallb (fun u => negb (arrow E u x)) V) V.
Fixpoint peel (E : list (string * string)) (n : nat) (V : list string) : list string :=
  match n with
  | O => []
  | S n => let s := minimal E V in s ++ peel E n (filter (fun x => negb (existsb (String.eqb x) s)) V)
  end.
