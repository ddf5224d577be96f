(** Specification for the matrix product: no reference to the model. *)
From Verif Require Import Base.
(** an n x m matrix as a list of rows *)
Definition rectangular (n m : Z) (M : list (list Z)) : Prop := len M = n /\ forall r, In r M -> len r = m.
