(** Specification for printing trees (C134, C135). *)
From Verif Require Import Base RangeSpec.

(** the printed nodes of the segment tree over the positions s..e of the list g, from the root of that part: each node shows its range and the
    combination of the values in it, then comes its left half, then its right half; a leaf is followed by two empty entries *)
Inductive seg_shown {V} (op : V -> V -> V) (g : list V) : Z -> Z -> list (option (Z * Z * option V)) -> Prop :=
| seg_leaf s : seg_shown op g s s [Some (s, s, fold1 op (range_of g s s)); None; None]
| seg_node s e L R : s < e -> seg_shown op g s ((s + e) / 2) L -> seg_shown op g ((s + e) / 2 + 1) e R ->
    seg_shown op g s e (Some (s, e, fold1 op (range_of g s e)) :: L ++ R).
(** what a reader of the printed table of a binary tree sees from a row on, following the printed left and right numbers: the entries in order.
    [row] picks left, key, data and right out of a printed row *)
Inductive table_shows {R D} (row : R -> option Z * option Z * option D * option Z) (tbl : list (option R)) : option Z -> list (Z * option D) -> Prop :=
| shows_none : table_shows row tbl None []
| shows_row i x l k d r L Rt : 0 <= i -> nth_error tbl (Z.to_nat i) = Some (Some x) -> row x = (l, Some k, d, r) ->
    table_shows row tbl l L -> table_shows row tbl r Rt -> table_shows row tbl (Some i) (L ++ (k, d) :: Rt).
