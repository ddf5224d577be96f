(** Specification of balance: heights, red-black colours, heap order. About trees only, not about the array. *)
From Verif Require Import Base TreeModel TreeSpec TreeProofs TreeModel2.

Section BalSpec.
  Context {D : Type}.
  Notation info := (info D). Notation bst := (bst D). Notation bt := (bt D).
  (** the empty tree has height -1 *)
  Fixpoint height (T : bt) : Z := match T with E => -1 | N l _ _ r => Z.max (height l) (height r) + 1 end.
  (** AVL: at every node the heights of the two subtrees differ by at most one *)
  Fixpoint balanced (T : bt) : Prop := match T with E => True | N l _ _ r => -1 <= height r - height l <= 1 /\ balanced l /\ balanced r end.
  (** the field height of every node holds the height of its subtree *)
  Fixpoint heights_stored (T : bt) : Prop := match T with E => True | N l _ x r => k_height x = height T /\ heights_stored l /\ heights_stored r end.
  (** the field size of every node holds the number of nodes of its subtree *)
  Fixpoint sizes_stored (T : bt) : Prop := match T with E => True | N l _ x r => k_size x = nodes T /\ sizes_stored l /\ sizes_stored r end.
  (** red-black: colour 1 is red, 0 is black *)
  Definition red (T : bt) : Prop := match T with E => False | N _ _ x _ => k_color x = Some 1 end.
  Definition black (T : bt) : Prop := match T with E => True | N _ _ x _ => k_color x = Some 0 end.
  (** every node is red or black, no red node has a red child *)
  Fixpoint no_red_red (T : bt) : Prop :=
    match T with
    | E => True
    | N l _ _ r => (black T \/ (red T /\ black l /\ black r)) /\ no_red_red l /\ no_red_red r
    end.
  (** every path from the root to an empty subtree has n black nodes *)
  Fixpoint black_count (T : bt) (n : Z) : Prop :=
    match T with
    | E => n = 0
    | N l _ x r => let m := if match k_color x with Some c => c =? 0 | None => false end then n - 1 else n in black_count l m /\ black_count r m
    end.
  (** heap order: no child has a smaller priority than its parent *)
  Fixpoint heap_ordered (T : bt) : Prop :=
    match T with
    | E => True
    | N l _ x r => (exists p, k_prio x = Some p /\ forall S, S = l \/ S = r -> match S with E => True | N _ _ y _ => exists q, k_prio y = Some q /\ p <= q end) /\ heap_ordered l /\ heap_ordered r
    end.
  (** a history of calls of an insert method *)
  Fixpoint insert_with (f : bst -> Z -> option D -> res bst) (b : bst) (h : list (Z * option D)) : res bst :=
    match h with [] => Ret b | (k, d) :: h' => b <- f b k d ;; insert_with f b h' end.
  Definition build_with (f : bst -> Z -> option D -> res bst) (start : option (Z * D)) (os : bool) (h : list (Z * option D)) : res bst :=
    b <- bst_new (option_map fst start) (option_map snd start) None os ;; insert_with f b h.
  (** with priorities: (key, priority, data) *)
  Fixpoint insert_prio (b : bst) (h : list (Z * Z * option D)) : res bst :=
    match h with [] => Ret b | (k, p, d) :: h' => b <- cart_insert b k p d ;; insert_prio b h' end.
End BalSpec.
