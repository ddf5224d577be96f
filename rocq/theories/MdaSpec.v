(** Specification for index tuples of a multi-dimensional array: no reference to the model. *)
From Verif Require Import Base.
(** the number of cells of a shape *)
Definition volume (dims : list Z) : Z := fold_right Z.mul 1 dims.
(** the place of an index tuple in row-major order (Horner's rule); any integers, in range or not *)
Definition row_major (dims t : list Z) : Z := fold_left (fun acc p => acc * fst p + snd p) (combine dims t) 0.
(** the tuples the code accepts: as many indices as dimensions, no index as large as the number of cells
    from its dimension on, and a row-major place from -volume to volume - 1 *)
Definition accepts (dims t : list Z) : Prop :=
  length t = length dims /\ (forall n, (n < length dims)%nat -> nth n t 0 < volume (skipn n dims)) /\
  - volume dims <= row_major dims t < volume dims.
