(** Model of PriorityQueue (pydatastructs/miscellaneous_data_structures/queue.py 388-498) over the models of its containers.
    Every class returns the new state and what the caller sees; a call that raises leaves the state as it was in all three. *)
From Verif Require Import Base LinkedModel LinkedProofs HeapModel BinomialModel BinomialSpec.

Section PQ.
  Context {P V : Type} (comp : P -> P -> bool).

  (** ** LinkedListPriorityQueue (queue.py 388-433): items is a SinglyLinkedList, node key = priority, data = value *)
  (** _find_peek (queue.py 412-426) on a non-empty list: (max_p, max_i) *)
  Definition lpq_find_peek (st : ll (P * V)) : res ((P * V) * Z) :=
    if l_size st =? 0 then Raise IndexError
    else
      m0 <- deref (l_heap st) (l_head st) ;;
      while_loop (S (S (length (l_heap st)))) (fun '(walk, i, max_p, max_i) =>
        match walk with
        | None => Ret (Break (max_p, max_i))
        | Some _ =>
          c <- deref (l_heap st) walk ;;
          if comp (fst (c_key c)) (fst max_p) then Ret (Next (c_next c, i + 1, c_key c, i))
          else Ret (Next (c_next c, i + 1, max_p, max_i))
        end) (l_head st, 0, c_key m0, 0).

  Definition lpq_step (st : ll (P * V)) (o : pq_op P V) : ll (P * V) * pq_out P V :=
    match o with
    | PPush v p => (** push (queue.py 404-405): append = insert_at(size) (linked_lists.py 48-66) *)
      match cls_op SLL st (LAppend (p, v)) with
      | (st', LErr e) => (st', PErr e) | (st', LFuel) => (st', PFuel) | (st', _) => (st', PNone) end
    | PPop => (** pop (queue.py 407-410) *)
      match lpq_find_peek st with
      | Ret (_, max_i) =>
        match cls_op SLL st (LExtract max_i) with
        | (st', LKey (_, v)) => (st', PVal v) | (st', LErr e) => (st', PErr e) | (st', _) => (st', PFuel) end
      | Raise e => (st, PErr e) | OutOfFuel => (st, PFuel) end
    | PPeek => (** peek (queue.py 428-430) *)
      match lpq_find_peek st with Ret ((p, v), _) => (st, PNode p v) | Raise e => (st, PErr e) | OutOfFuel => (st, PFuel) end
    | PEmpty => (st, PBool (l_size st =? 0)) (** 432-434 *)
    end.

  (** ** BinaryHeapPriorityQueue (queue.py 436-466): items is a BinaryHeap with _comp := comp *)
  Definition hpq_step (h : list (P * V)) (o : pq_op P V) : list (P * V) * pq_out P V :=
    match o with
    | PPush v p => match heap_insert comp 2 h p v with Ret h' => (h', PNone) | Raise e => (h, PErr e) | OutOfFuel => (h, PFuel) end
    | PPop => match heap_extract comp 2 h with Ret ((_, v), h') => (h', PVal v) | Raise e => (h, PErr e) | OutOfFuel => (h, PFuel) end
    | PPeek => if heap_is_empty h then (h, PErr IndexError)
               else match aget h 0 with Ret (p, v) => (h, PNode p v) | Raise e => (h, PErr e) | OutOfFuel => (h, PFuel) end
    | PEmpty => (h, PBool (heap_is_empty h))
    end.
End PQ.

(** ** BinomialHeapPriorityQueue (queue.py 468-498) *)
Definition bpq_step {V} (h : bheap V) (o : pq_op Z V) : bheap V * pq_out Z V :=
  match o with
  | PPush v p => match bh_insert h p v with Ret h' => (h', PNone) | Raise e => (h, PErr e) | OutOfFuel => (h, PFuel) end
  | PPop => match (' (node, _) <- bh_find_minimum h ;; h' <- bh_delete_minimum h ;; Ret (node, h')) with
            | Ret (node, h') => (h', PVal (b_data node)) | Raise e => (h, PErr e) | OutOfFuel => (h, PFuel) end
  | PPeek => match bh_find_minimum h with Ret (n, _) => (h, PNode (b_key n) (b_data n)) | Raise e => (h, PErr e) | OutOfFuel => (h, PFuel) end
  | PEmpty => (h, PBool (bh_is_empty h))
  end.
