(** Specification: histories of deletes on the self-balancing trees. *)
From Verif Require Import Base TreeModel.

Section DelSpec.
  Context {D : Type}.
  (** a history of calls of a delete method, with what they return *)
  Fixpoint delete_with (f : bst D -> Z -> res (bst D * bool)) (b : bst D) (ks : list Z) : res (bst D * list bool) :=
    match ks with
    | [] => Ret (b, [])
    | k :: ks' => ' (b, x) <- f b k ;; ' (b, xs) <- delete_with f b ks' ;; Ret (b, x :: xs)
    end.
End DelSpec.
