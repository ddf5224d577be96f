(** Model of DHeap / BinaryHeap / TernaryHeap (pydatastructs/trees/heaps.py 22-354).
    [heap] is the sequence of the nodes at positions 0.._last_pos_filled of the DynamicOneDimensionalArray of
    TreeNodes; a node is its (key, data) pair, because _swap exchanges the key and data fields of the two nodes.
    Only [append] and [delete] of the last position are used on the dynamic array; DodaPacked.packed_append /
    packed_pop show that there the dynamic array of ArraysModel.v behaves as snoc / removelast on this sequence.
    Simplification: the nodes given to the constructor are distinct objects. _leftmost/_rightmost are only used by __str__
    (PrintModel.heap_nodes). [comp] is self._comp. *)
From Verif Require Import Base ArraysModel SortModel.

Section DHeap.
  Context {K D : Type} (comp : K -> K -> bool) (d : Z).
  Notation heap_t := (list (K * D)).

  (** the inner [for j in range(l, r+1)] of _heapify (heaps.py 130-135) *)
  Definition heap_target (heap : heap_t) (i : Z) : res Z :=
    forM (zrange (d * i + 1) (d * i + d + 1)) (fun j target =>
      if j <=? len heap - 1 then
        x <- aget heap j ;; y <- aget heap target ;;
        Ret (if comp (fst x) (fst y) then j else target)
      else Ret target) i.

  (** _heapify (heaps.py 124-141). After the [break] of the for loop the remaining j are also out of range, so going on
      without effect is the same. *)
  Definition heapify (heap : heap_t) (i : Z) : res heap_t :=
    while_loop (S (Z.to_nat (len heap - i))) (fun '(heap, i) =>
      target <- heap_target heap i ;;
      if negb (target =? i) then heap' <- swap heap target i ;; Ret (Next (heap', target))
      else Ret (Break heap)) (heap, i).

  (** _build (heaps.py 109-114), __new__ (92-103) *)
  Definition heap_build (elements : heap_t) : res heap_t :=
    forM (zrange_down (len elements / d) (-1)) (fun i heap => heapify heap i) elements.

  (** insert (heaps.py 160-172) *)
  Definition heap_insert (heap : heap_t) (key : K) (data : D) : res heap_t :=
    let heap := heap ++ [(key, data)] in
    while_loop (S (length heap)) (fun '(heap, i) =>
      let parent := (i - 1) / d in
      if i =? 0 then Ret (Break heap)
      else x <- aget heap parent ;; y <- aget heap i ;;
           if comp (fst x) (fst y) then Ret (Break heap)
           else heap' <- swap heap i parent ;; Ret (Next (heap', parent))) (heap, len heap - 1).

  (** extract (heaps.py 188-196) *)
  Definition heap_extract (heap : heap_t) : res ((K * D) * heap_t) :=
    if len heap - 1 =? -1 then Raise IndexError
    else
      element_to_be_extracted <- aget heap 0 ;;
      heap' <- swap heap 0 (len heap - 1) ;;
      heap'' <- heapify (removelast heap') 0 ;;
      Ret (element_to_be_extracted, heap'').

  (** is_empty (heaps.py 212-217) *)
  Definition heap_is_empty (heap : heap_t) : bool := len heap - 1 =? -1.

  Inductive heap_op := HInsert (key : K) (data : D) | HExtract.
  (** one call; a failed extract leaves the heap as it was *)
  Definition heap_step (heap : heap_t) (o : heap_op) : res heap_t :=
    match o with
    | HInsert k x => heap_insert heap k x
    | HExtract => match heap_extract heap with Ret (_, h) => Ret h | Raise _ => Ret heap | OutOfFuel => OutOfFuel end
    end.
  Definition heap_run (ops : list heap_op) (heap : heap_t) : res heap_t := forM ops (fun o h => heap_step h o) heap.
End DHeap.
Arguments heap_op : clear implicits.
