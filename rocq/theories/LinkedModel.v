(** Model of pydatastructs/linear_data_structures/linked_lists.py (14-632) on an explicit heap.
    A node (utils/misc_util.py LinkedListNode 281-325) is a cell of the heap; its address is its
    index, so "is"/"==" on nodes (the default identity comparison) is equality of addresses.
    The pair (key, data) of a node is one value of type [K]. The attribute [prev] exists on every cell but
    singly linked lists never read or write it. Heap cells are never freed (Python keeps extracted nodes alive).
    Reading or writing an attribute of None raises AttributeError.
    Methods return the new state together with the result, because some calls mutate before raising. *)
From Verif Require Import Base.

Record cell (K : Type) := Cell { c_key : K; c_next : option nat; c_prev : option nat }.
Arguments Cell {K}. Arguments c_key {K}. Arguments c_next {K}. Arguments c_prev {K}.

Record ll (K : Type) := LL
  { l_heap : list (cell K); l_head : option nat; l_tail : option nat; l_size : Z }.
Arguments LL {K}. Arguments l_heap {K}. Arguments l_head {K}. Arguments l_tail {K}. Arguments l_size {K}.

Section Linked.
  Context {K : Type}.
  Notation heap := (list (cell K)).

  (** attribute access on a possibly-None reference *)
  Definition deref (h : heap) (p : option nat) : res (cell K) :=
    match p with
    | None => Raise AttributeError
    | Some a => match nth_error h a with Some c => Ret c | None => Raise AttributeError end
    end.
  Definition set_next (h : heap) (a : nat) (q : option nat) : heap :=
    match nth_error h a with Some c => upd h a (Cell (c_key c) q (c_prev c)) | None => h end.
  Definition set_prev (h : heap) (a : nat) (q : option nat) : heap :=
    match nth_error h a with Some c => upd h a (Cell (c_key c) (c_next c) q) | None => h end.

  (** __new__ (linked_lists.py 249-256, 399-406) *)
  Definition ll_new : ll K := LL [] None None 0.

  (** the position loops [while counter != index: prev_node = current_node; current_node = current_node.next; counter += 1]
      (linked_lists.py 316-319, 345-348, 449-452, 475-478, and without prev_node 121-126);
      result: prev_node and current_node *)
  Definition walk_to (fuel : nat) (h : heap) (start : option nat) (index : Z) : res (option nat * option nat) :=
    while_loop fuel (fun '(counter, prev, cur) =>
      if counter =? index then Ret (Break (prev, cur))
      else c <- deref h cur ;; Ret (Next (counter + 1, cur, c_next c)))
      (0, None, start).

  (** LinkedList.__getitem__ (linked_lists.py 107-126) *)
  Definition ll_getitem (fuel : nat) (st : ll K) (index : Z) : res (option nat) :=
    let index := if index <? 0 then l_size st + index else index in
    if l_size st <=? index then Raise IndexError
    else ' (_, cur) <- walk_to fuel (l_heap st) (l_head st) index ;; Ret cur.

  (** LinkedList.search (linked_lists.py 27-35), [eqk] is Python == on keys *)
  Definition ll_search (eqk : K -> bool) (fuel : nat) (st : ll K) : res (option nat) :=
    while_loop fuel (fun cur =>
      match cur with
      | None => Ret (Break None)
      | Some a => c <- deref (l_heap st) cur ;;
          if eqk (c_key c) then Ret (Break (Some a))
          else match c_next c, l_head st with
               | Some b, Some hd => if (b =? hd)%nat then Ret (Break None) else Ret (Next (Some b))
               | None, None => Ret (Break None)
               | nx, _ => Ret (Next nx)
               end
      end) (l_head st).

  Definition norm_insert_index (size index : Z) : Z :=
    let index := if (size =? 0) && ((index =? 0) || (index =? -1)) then 0 else index in
    if index <? 0 then size + index else index.

  (** ** SinglyLinkedList *)
  (** insert_at (linked_lists.py 424-459) *)
  Definition sll_insert_at (fuel : nat) (st : ll K) (index0 : Z) (k : K) : ll K * res unit :=
    let index := norm_insert_index (l_size st) index0 in
    if l_size st <? index then (st, Raise IndexError)
    else
      let size := l_size st + 1 in
      let new := length (l_heap st) in
      let h := l_heap st ++ [Cell k None None] in
      let st1 := LL h (l_head st) (l_tail st) size in
      if size =? 1 then (LL h (Some new) (Some new) size, Ret tt)
      else if index =? size - 1 then
        match l_tail st, deref h (l_tail st) with
        | Some t, Ret ct => (LL (set_next (set_next h new (c_next ct)) t (Some new)) (l_head st) (Some new) size, Ret tt)
        | _, _ => (st1, Raise AttributeError)
        end
      else
        match walk_to fuel h (l_head st) index with
        | Ret (prev, cur) =>
          let h1 := set_next h new cur in
          let h2 := match prev with Some p => set_next h1 p (Some new) | None => h1 end in
          let tail := match cur with None => Some new | Some _ => l_tail st end in
          let head := if index =? 0 then Some new else l_head st in
          (LL h2 head tail size, Ret tt)
        | Raise e => (st1, Raise e)
        | OutOfFuel => (st1, OutOfFuel)
        end.

  (** insert_after (linked_lists.py 413-422), [p] the address of prev_node *)
  Definition sll_insert_after (st : ll K) (p : nat) (k : K) : ll K * res unit :=
    let size := l_size st + 1 in
    let new := length (l_heap st) in
    let h := l_heap st ++ [Cell k None None] in
    match deref h (Some p) with
    | Ret cp =>
      let h1 := set_next (set_next h new (c_next cp)) p (Some new) in
      (LL h1 (l_head st) (match c_next cp with None => Some new | Some _ => l_tail st end) size, Ret tt)
    | _ => (LL h (l_head st) (l_tail st) size, Raise AttributeError)
    end.

  (** extract (linked_lists.py 461-485); returns the address of the extracted node *)
  Definition sll_extract (fuel : nat) (st : ll K) (index0 : Z) : ll K * res nat :=
    if l_size st =? 0 then (st, Raise ValueError)
    else
      let index := if index0 <? 0 then l_size st + index0 else index0 in
      if l_size st <=? index then (st, Raise IndexError)
      else
        let size := l_size st - 1 in
        let h := l_heap st in
        let st1 := LL h (l_head st) (l_tail st) size in
        match walk_to fuel h (l_head st) index with
        | Ret (prev, cur) =>
          match cur, deref h cur with
          | Some a, Ret c =>
            let h1 := match prev with Some p => set_next h p (c_next c) | None => h end in
            let head := if index =? 0 then c_next c else l_head st in
            let tail := if index =? size then prev else l_tail st in
            (LL h1 head tail size, Ret a)
          | _, _ => (st1, Raise AttributeError)
          end
        | Raise e => (st1, Raise e)
        | OutOfFuel => (st1, OutOfFuel)
        end.

  (** appendleft / append / popleft / popright (linked_lists.py 128-159, 181-207) *)
  Definition sll_appendleft fuel st k := sll_insert_at fuel st 0 k.
  Definition sll_append fuel st k := sll_insert_at fuel st (l_size st) k.
  Definition sll_popleft fuel st := sll_extract fuel st 0.
  Definition sll_popright fuel st := sll_extract fuel st (-1).

  (** ** DoublyLinkedList *)
  (** insert_after (linked_lists.py 263-275) *)
  Definition dll_insert_after (st : ll K) (p : nat) (k : K) : ll K * res unit :=
    let size := l_size st + 1 in
    let new := length (l_heap st) in
    let h := l_heap st ++ [Cell k None None] in
    match deref h (Some p) with
    | Ret cp =>
      let nx := c_next cp in
      let h1 := set_next h new nx in
      let h2 := match nx with Some n => set_prev h1 n (Some new) | None => h1 end in
      let h3 := set_prev (set_next h2 p (Some new)) new (Some p) in
      (LL h3 (l_head st) (match nx with None => Some new | Some _ => l_tail st end) size, Ret tt)
    | _ => (LL h (l_head st) (l_tail st) size, Raise AttributeError)
    end.

  (** insert_before (linked_lists.py 277-288) *)
  Definition dll_insert_before (st : ll K) (n : nat) (k : K) : ll K * res unit :=
    let size := l_size st + 1 in
    let new := length (l_heap st) in
    let h := l_heap st ++ [Cell k None None] in
    match deref h (Some n) with
    | Ret cn =>
      let pv := c_prev cn in
      let h1 := set_next (set_prev (set_prev h new pv) n (Some new)) new (Some n) in
      match pv with
      | Some p => (LL (set_next h1 p (Some new)) (l_head st) (l_tail st) size, Ret tt)
      | None => (LL h1 (Some new) (l_tail st) size, Ret tt)
      end
    | _ => (LL h (l_head st) (l_tail st) size, Raise AttributeError)
    end.

  (** insert_at (linked_lists.py 290-329) *)
  Definition dll_insert_at (fuel : nat) (st : ll K) (index0 : Z) (k : K) : ll K * res unit :=
    let index := norm_insert_index (l_size st) index0 in
    if l_size st <? index then (st, Raise IndexError)
    else
      let size := l_size st + 1 in
      let new := length (l_heap st) in
      let h := l_heap st ++ [Cell k None None] in
      let st1 := LL h (l_head st) (l_tail st) size in
      if size =? 1 then (LL h (Some new) (Some new) size, Ret tt)
      else if index =? size - 1 then
        match l_tail st, deref h (l_tail st) with
        | Some t, Ret ct =>
          (LL (set_next (set_next (set_prev h new (Some t)) new (c_next ct)) t (Some new)) (l_head st) (Some new) size, Ret tt)
        | _, _ => (st1, Raise AttributeError)
        end
      else
        match walk_to fuel h (l_head st) index with
        | Ret (prev, cur) =>
          let h1 := set_next (set_prev h new prev) new cur in
          let h2 := match prev with Some p => set_next h1 p (Some new) | None => h1 end in
          let h3 := match cur with Some c => set_prev h2 c (Some new) | None => h2 end in
          let tail := match cur with None => Some new | Some _ => l_tail st end in
          let head := match prev with None => Some new | Some _ => l_head st end in
          (LL h3 head tail size, Ret tt)
        | Raise e => (st1, Raise e)
        | OutOfFuel => (st1, OutOfFuel)
        end.

  (** extract (linked_lists.py 331-357) *)
  Definition dll_extract (fuel : nat) (st : ll K) (index0 : Z) : ll K * res nat :=
    if l_size st =? 0 then (st, Raise ValueError)
    else
      let index := if index0 <? 0 then l_size st + index0 else index0 in
      if l_size st <=? index then (st, Raise IndexError)
      else
        let size := l_size st - 1 in
        let h := l_heap st in
        let st1 := LL h (l_head st) (l_tail st) size in
        match walk_to fuel h (l_head st) index with
        | Ret (prev, cur) =>
          match cur, deref h cur with
          | Some a, Ret c =>
            let h1 := match prev with Some p => set_next h p (c_next c) | None => h end in
            let h2 := match c_next c with Some n => set_prev h1 n prev | None => h1 end in
            let head := if index =? 0 then c_next c else l_head st in
            let tail := if index =? size then match nth_error h2 a with Some c2 => c_prev c2 | None => None end else l_tail st in
            (LL h2 head tail size, Ret a)
          | _, _ => (st1, Raise AttributeError)
          end
        | Raise e => (st1, Raise e)
        | OutOfFuel => (st1, OutOfFuel)
        end.

  (** ** SinglyCircularLinkedList *)
  Definition opt_eqb (a b : option nat) : bool :=
    match a, b with Some x, Some y => (x =? y)%nat | None, None => true | _, _ => false end.

  (** insert_at (linked_lists.py 537-545) *)
  Definition scl_insert_at (fuel : nat) (st : ll K) (index : Z) (k : K) : ll K * res unit :=
    match sll_insert_at fuel st index k with
    | (s1, Ret _) =>
      let s2 := if l_size s1 =? 1 then
                  LL (match l_head s1 with Some a => set_next (l_heap s1) a (Some a) | None => l_heap s1 end)
                     (l_head s1) (l_tail s1) (l_size s1)
                else s1 in
      match ll_getitem fuel s2 index with
      | Ret (Some n) =>
        let s3 := if index =? 0 then
                    LL (match l_tail s2 with Some t => set_next (l_heap s2) t (Some n) | None => l_heap s2 end)
                       (l_head s2) (l_tail s2) (l_size s2)
                  else s2 in
        match deref (l_heap s3) (Some n) with
        | Ret c => (if opt_eqb (c_next c) (l_head s3)
                    then LL (l_heap s3) (l_head s3) (Some n) (l_size s3) else s3, Ret tt)
        | _ => (s3, Raise AttributeError)
        end
      | Ret None => (s2, Raise AttributeError)
      | Raise e => (s2, Raise e)
      | OutOfFuel => (s2, OutOfFuel)
      end
    | (s1, r) => (s1, r)
    end.

  (** extract (linked_lists.py 547-553) *)
  Definition scl_extract (fuel : nat) (st : ll K) (index : Z) : ll K * res nat :=
    match sll_extract fuel st index with
    | (s1, Ret a) =>
      (match l_tail s1 with
       | None => LL (l_heap s1) None None (l_size s1)
       | Some t => if index =? 0 then LL (set_next (l_heap s1) t (l_head s1)) (l_head s1) (l_tail s1) (l_size s1)
                   else s1
       end, Ret a)
    | r => r
    end.

  (** insert_after (linked_lists.py 531-535): prev_node.next is the new node *)
  Definition scl_insert_after (st : ll K) (p : nat) (k : K) : ll K * res unit :=
    match sll_insert_after st p k with
    | (s1, Ret _) =>
      let new := length (l_heap st) in
      match deref (l_heap s1) (Some new) with
      | Ret c => (if opt_eqb (c_next c) (l_head s1)
                  then LL (l_heap s1) (l_head s1) (Some new) (l_size s1) else s1, Ret tt)
      | _ => (s1, Raise AttributeError)
      end
    | r => r
    end.

  (** ** DoublyCircularLinkedList *)
  (** insert_after (linked_lists.py 599-603) *)
  Definition dcl_insert_after (st : ll K) (p : nat) (k : K) : ll K * res unit :=
    match dll_insert_after st p k with
    | (s1, Ret _) =>
      let new := length (l_heap st) in
      match deref (l_heap s1) (Some new) with
      | Ret c => (if opt_eqb (c_next c) (l_head s1)
                  then LL (l_heap s1) (l_head s1) (Some new) (l_size s1) else s1, Ret tt)
      | _ => (s1, Raise AttributeError)
      end
    | r => r
    end.

  (** insert_before (linked_lists.py 605-609) *)
  Definition dcl_insert_before (st : ll K) (n : nat) (k : K) : ll K * res unit :=
    match dll_insert_before st n k with
    | (s1, Ret _) =>
      (if opt_eqb (Some n) (l_head s1)
       then LL (l_heap s1) (match deref (l_heap s1) (Some n) with Ret c => c_prev c | _ => None end) (l_tail s1) (l_size s1)
       else s1, Ret tt)
    | r => r
    end.

  (** insert_at (linked_lists.py 611-624) *)
  Definition dcl_insert_at (fuel : nat) (st : ll K) (index : Z) (k : K) : ll K * res unit :=
    match dll_insert_at fuel st index k with
    | (s1, Ret _) =>
      let s2 := if l_size s1 =? 1 then
                  LL (match l_head s1 with Some a => set_prev (set_next (l_heap s1) a (Some a)) a (Some a) | None => l_heap s1 end)
                     (l_head s1) (l_tail s1) (l_size s1)
                else s1 in
      match ll_getitem fuel s2 index with
      | Ret (Some n) =>
        let s3 := if index =? 0 then
                    LL (match l_tail s2 with Some t => set_prev (set_next (l_heap s2) t (Some n)) n (Some t) | None => set_prev (l_heap s2) n None end)
                       (l_head s2) (l_tail s2) (l_size s2)
                  else s2 in
        match deref (l_heap s3) (Some n) with
        | Ret c => (if opt_eqb (c_next c) (l_head s3)
                    then LL (match l_head s3 with
                             | Some hd => set_prev (set_next (l_heap s3) n (Some hd)) hd (Some n)
                             | None => l_heap s3 end) (l_head s3) (Some n) (l_size s3)
                    else s3, Ret tt)
        | _ => (s3, Raise AttributeError)
        end
      | Ret None => (s2, Raise AttributeError)
      | Raise e => (s2, Raise e)
      | OutOfFuel => (s2, OutOfFuel)
      end
    | (s1, r) => (s1, r)
    end.

  (** extract (linked_lists.py 626-632) *)
  Definition dcl_extract (fuel : nat) (st : ll K) (index : Z) : ll K * res nat :=
    match dll_extract fuel st index with
    | (s1, Ret a) =>
      (match l_tail s1 with
       | None => LL (l_heap s1) None None (l_size s1)
       | Some t => if index =? 0 then LL (set_next (l_heap s1) t (l_head s1)) (l_head s1) (l_tail s1) (l_size s1)
                   else s1
       end, Ret a)
    | r => r
    end.

  (** ** Observation: follow links (what iteration / __str__, linked_lists.py 37-48, sees) *)
  Fixpoint follow (step : cell K -> option nat) (n : nat) (h : heap) (p : option nat) : list (nat * K) :=
    match n, p with
    | S n', Some a => match nth_error h a with
                      | Some c => (a, c_key c) :: follow step n' h (step c)
                      | None => []
                      end
    | _, _ => []
    end.
End Linked.
Arguments ll_new : clear implicits.
