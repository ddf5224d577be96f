(** Model of ArraySegmentTree.__str__ (segment_tree.py 101-114): the pairs (key, data), [None] for the empty string. The Stack is a list, top first. *)
From Verif Require Import Base RangeModel.

Definition st_printed {V} (t : segtree V) : res (list (option (Z * Z * option V))) :=
  while_loop (4 * length (st_heap t) + 3) (fun '(stack, out) =>
    match stack with
    | [] => Ret (Break out)
    | None :: stack => Ret (Next (stack, out ++ [None]))
    | Some a :: stack => n <- sget (st_heap t) a ;; Ret (Next (s_left n :: s_right n :: stack, out ++ [Some (s_start n, s_end n, s_data n)]))
    end) ([st_root t], []).
