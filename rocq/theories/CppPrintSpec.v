(** What a reader of the printed table of a C++ tree sees. Nothing here mentions the model. *)
From Verif Require Import Base.

(** from row [i] on, following the printed left and right numbers, the table shows the entries in order. A row is (left, key, priority, data, right). *)
Inductive ctable_shows {K P D : Type} (tbl : list (option (option Z * option K * P * option D * option Z))) : option Z -> list (K * option D) -> Prop :=
| cshows_none : ctable_shows tbl None []
| cshows_row i l k p d r L R : 0 <= i -> nth_error tbl (Z.to_nat i) = Some (Some (l, Some k, p, d, r)) ->
    ctable_shows tbl l L -> ctable_shows tbl r R -> ctable_shows tbl (Some i) (L ++ (k, d) :: R).
(** the printed priorities: no row has a smaller priority than the row that points to it ([q] is the priority of that row, None at the root) *)
Inductive ctable_heap {K D : Type} (tbl : list (option (option Z * option K * option Z * option D * option Z))) : option Z -> option Z -> Prop :=
| cheap_none q : ctable_heap tbl None q
| cheap_row i l k p d r q : 0 <= i -> nth_error tbl (Z.to_nat i) = Some (Some (l, k, Some p, d, r)) -> match q with Some q => q <= p | None => True end ->
    ctable_heap tbl l (Some p) -> ctable_heap tbl r (Some p) -> ctable_heap tbl (Some i) q.
