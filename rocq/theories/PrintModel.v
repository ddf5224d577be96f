(** Model of the __str__ methods (and of DynamicOneDimensionalArray.__reversed__). Every __str__ builds a Python list and returns [str] of it;
    the model returns that list, with the pieces that [str] turns into text kept as values: the pair (key, data) of a node is one value, an
    empty string is [None]. Turning the values into text is not modelled. *)
From Verif Require Import Base ArraysModel LinkedModel StackQueueModel SkipModel.

Section Linear.
  Context {A : Type}.
  (** LinkedList.__str__ (linked_lists.py 37-48), used by the four linked lists and by LinkedListQueue (queue.py 274-275).
      [current_node == self.head] compares identities *)
  Definition ll_printed (fuel : nat) (st : ll A) : res (list A) :=
    while_loop fuel (fun '(elements, cur) =>
      match cur with
      | None => Ret (Break elements)
      | Some a =>
        c <- deref (l_heap st) cur ;;
        let elements := elements ++ [c_key c] in
        if opt_eqb (c_next c) (l_head st) then Ret (Break elements) else Ret (Next (elements, c_next c))
      end) ([], l_head st).
  (** LinkedListStack.__str__ (stack.py 194-200): from peek (183-185) to the end, reversed *)
  Definition ls_printed (fuel : nat) (st : ll A) : res (list A) :=
    while_loop fuel (fun '(elements, cur) =>
      match cur with
      | None => Ret (Break (rev elements))
      | Some a => c <- deref (l_heap st) cur ;; Ret (Next (elements ++ [c_key c], c_next c))
      end) ([], l_head st).
  (** DynamicOneDimensionalArray.__str__ (arrays.py 425-430) *)
  Definition doda_printed (d : doda A) : res (list (option A)) :=
    forM (zrange 0 (d_last d + 1)) (fun i out => x <- lget (d_data d) i ;; match x with None => Ret out | Some v => aset out i (Some v) end)
      (repeat None (Z.to_nat (d_last d + 1))).
  (** ArrayStack.__str__ (stack.py 141-145) prints the list behind the dynamic array *)
  Definition as_printed (d : doda A) : list (option A) := d_data d.
  (** ArrayQueue.__str__ (queue.py 207-211): items._data[i] is the access to the Python list, so -1 is its last cell *)
  Definition aq_printed (q : aqueue A) : res (list (option A)) :=
    forM (zrange (q_front q) (q_rear q + 1)) (fun i out => x <- lget (d_data (q_items q)) i ;; Ret (out ++ [x])) [].
End Linear.

(** DHeap.__str__ (heaps.py 198-210). [nodes] are the nodes at positions 0.._last_pos_filled with their _leftmost and _rightmost. *)
Definition heap_printed {K D} (nodes : list (K * D * (Z * Z))) : list (K * D * list Z) :=
  let last := len nodes - 1 in
  map (fun n => let '(kd, (leftmost, rightmost)) := n in
    (kd, if leftmost <=? last then if rightmost <=? last then zrange leftmost (rightmost + 1) else zrange leftmost (last + 1) else [])) nodes.
(** _leftmost and _rightmost of the node at each position: set to d*i+1 and d*i+d when a node is put at position i (heaps.py 110-112, 164)
    and never changed (_swap, 116-122, exchanges keys and data only) *)
Definition heap_nodes {K D} (d : Z) (heap : list (K * D)) : list (K * D * (Z * Z)) :=
  map (fun p => (snd p, (d * Z.of_nat (fst p) + 1, d * Z.of_nat (fst p) + d))) (combine (seq 0 (length heap)) heap).

Section SkipPrint.
  Context {D : Type}.
  (** the inner loop of the first walk of SkipList.__str__ (linked_lists.py 791-799) along one level: node2row and node2col as association lists, newest entry first *)
  Definition skip_note (st : skip D) (level : Z) (bottom : bool) (walk : option nat) (r : list (nat * Z)) (c : list (Z * Z)) : res (list (nat * Z) * list (Z * Z)) :=
    while_loop (S (length (k_heap st))) (fun '(node, col, r, c) =>
      match node with
      | None => Ret (Break (r, c))
      | Some a =>
        n <- sderef (k_heap st) node ;;
        match s_key n with
        | Fin k => Ret (Next (s_next n, col + 1, (a, level) :: r, if bottom : bool then (k, col) :: c else c))
        | _ => Ret (Next (s_next n, col, r, c))
        end
      end) (walk, 0, r, c).
  (** 786-801 *)
  Definition skip_notes (st : skip D) : res (list (nat * Z) * list (Z * Z)) :=
    while_loop (S (length (k_heap st))) (fun '(walk, level, r, c) =>
      match walk with
      | None => Ret (Break (r, c))
      | Some a =>
        w <- sderef (k_heap st) walk ;;
        ' (r, c) <- skip_note st level (match s_down w with None => true | Some _ => false end) walk r c ;;
        Ret (Next (s_down w, level - 1, r, c))
      end) (k_head st, k_levels st - 1, [], []).
  Fixpoint find_row (r : list (nat * Z)) (a : nat) : option Z := match r with [] => None | (b, v) :: r => if (b =? a)%nat then Some v else find_row r a end.
  Fixpoint find_col (c : list (Z * Z)) (k : Z) : res Z := match c with [] => Raise KeyError | (b, v) :: c => if b =? k then Ret v else find_col c k end.
  (** 805-811: one level of the second walk *)
  Definition skip_draw (st : skip D) (r : list (nat * Z)) (c : list (Z * Z)) (walk : option nat) (mat : list (list (option (Z * option D)))) : res (list (list (option (Z * option D)))) :=
    while_loop (S (length (k_heap st))) (fun '(node, mat) =>
      match node with
      | None => Ret (Break mat)
      | Some a =>
        n <- sderef (k_heap st) node ;;
        match find_row r a with
        | None => Ret (Next (s_next n, mat))
        | Some row =>
          match s_key n with
          | Fin k => col <- find_col c k ;; line <- lget mat row ;; line <- aset line col (Some (k, s_data n)) ;; mat <- aset mat row line ;; Ret (Next (s_next n, mat))
          | _ => Raise KeyError
          end
        end
      end) (walk, mat).
  (** SkipList.__str__ (785-819): the rows of the printed text from the first to the last, [None] for the word None *)
  Definition skip_printed (st : skip D) : res (list (list (option (Z * option D)))) :=
    ' (r, c) <- skip_notes st ;;
    mat <- while_loop (S (length (k_heap st))) (fun '(walk, mat) =>
      match walk with
      | None => Ret (Break mat)
      | Some a => mat <- skip_draw st r c walk mat ;; w <- sderef (k_heap st) walk ;; Ret (Next (s_down w, mat))
      end) (k_head st, repeat (repeat None (Z.to_nat (k_num st))) (Z.to_nat (k_levels st))) ;;
    Ret (rev mat).
End SkipPrint.
