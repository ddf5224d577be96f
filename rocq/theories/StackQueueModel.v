(** Model of pydatastructs/miscellaneous_data_structures/stack.py and queue.py (Queue part).
    Elements are non-None values of one type, so [self.items._dtype = type(x)] (stack.py 118-119,
    queue.py 137-139, 149) makes the dtype coercion the identity. [dc] (deepcopy) returns an equal value.
    A method returns the new state and what the caller sees. *)
From Verif Require Import Base ArraysModel LinkedModel.

Inductive qout (A : Type) :=
| OUnit | OVal (v : option A) | OInt (n : Z) | OBool (b : bool) | OErr (e : exn) | OFuel.
Arguments OUnit {A}. Arguments OVal {A}. Arguments OInt {A}. Arguments OBool {A}. Arguments OErr {A}. Arguments OFuel {A}.

Definition out_of {S A} (old : S) (m : res (S * qout A)) : S * qout A :=
  match m with Ret p => p | Raise e => (old, OErr e) | OutOfFuel => (old, OFuel) end.

Inductive stack_op (A : Type) := SPush (x : A) | SPop | SPeek | SLen | SEmpty.
Arguments SPush {A}. Arguments SPop {A}. Arguments SPeek {A}. Arguments SLen {A}. Arguments SEmpty {A}.

Section ArrayStack.
  Context {A : Type}.
  (** __new__ (stack.py 100-110): load factor defaults to 0.25 *)
  Definition as_new (items : list A) : doda A :=
    match items with [] => doda_new_size 0 1 4 | _ => doda_new_list items 1 4 end.
  (** is_empty (stack.py 130-132) *)
  Definition as_is_empty (d : doda A) : bool := d_last d =? -1.
  Definition as_step (d : doda A) (o : stack_op A) : doda A * qout A :=
    match o with
    | SPush x => out_of d (d' <- doda_append d x ;; Ret (d', OUnit))               (* stack.py 117-120 *)
    | SPop =>                                                                     (* stack.py 122-128 *)
      if as_is_empty d then (d, OErr IndexError)
      else out_of d (top <- doda_get d (d_last d) ;; d' <- doda_delete d (d_last d) ;; Ret (d', OVal top))
    | SPeek => out_of d (top <- doda_get d (d_last d) ;; Ret (d, OVal top))        (* stack.py 134-136 *)
    | SLen => (d, OInt (d_num d))                                                 (* stack.py 138-139 *)
    | SEmpty => (d, OBool (as_is_empty d))
    end.
End ArrayStack.

Section LLStack.
  Context {A : Type}.
  Definition fuel_of (st : ll A) : nat := S (S (length (l_heap st))).
  Definition node_out (st : ll A) (p : option nat) : qout A :=
    match p with
    | None => OVal None
    | Some a => match nth_error (l_heap st) a with Some c => OVal (Some (c_key c)) | None => OErr AttributeError end
    end.
  Definition of_unit (p : ll A * res unit) : ll A * qout A :=
    match p with (s, Ret _) => (s, OUnit) | (s, Raise e) => (s, OErr e) | (s, OutOfFuel) => (s, OFuel) end.
  Definition of_node (p : ll A * res nat) : ll A * qout A :=
    match p with (s, Ret a) => (s, node_out s (Some a)) | (s, Raise e) => (s, OErr e) | (s, OutOfFuel) => (s, OFuel) end.

  (** LinkedListStack (stack.py 148-192); pop and peek return nodes, observed through their key *)
  Definition ls_step (st : ll A) (o : stack_op A) : ll A * qout A :=
    match o with
    | SPush x => of_unit (sll_appendleft (fuel_of st) st x)                        (* stack.py 171-172 *)
    | SPop => if l_size st =? 0 then (st, OErr IndexError)
              else of_node (sll_popleft (fuel_of st) st)                          (* stack.py 174-177 *)
    | SPeek => (st, node_out st (l_head st))                                      (* stack.py 183-185 *)
    | SLen => (st, OInt (l_size st))                                              (* stack.py 191-192 *)
    | SEmpty => (st, OBool (l_size st =? 0))                                      (* stack.py 179-181 *)
    end.
  (** __new__ (stack.py 152-164): pushes the items in order *)
  Definition ls_new (items : list A) : ll A :=
    fold_left (fun st x => fst (ls_step st (SPush x))) items (ll_new A).
End LLStack.

Inductive queue_op (A : Type) := QAppend (x : A) | QAppendLeft (x : A) | QPopLeft | QPop | QLen | QEmpty.
Arguments QAppend {A}. Arguments QAppendLeft {A}. Arguments QPopLeft {A}. Arguments QPop {A}. Arguments QLen {A}. Arguments QEmpty {A}.

Section LLQueue.
  Context {A : Type}.
  (** LinkedListQueue (queue.py 213-275); [de] is _double_ended *)
  Definition lq_step (de : bool) (st : ll A) (o : queue_op A) : ll A * qout A :=
    match o with
    | QAppend x => of_unit (sll_append (fuel_of st) st x)                          (* queue.py 238-239 *)
    | QAppendLeft x => if de then of_unit (sll_appendleft (fuel_of st) st x)
                       else (st, OErr NotImplementedError)                        (* queue.py 241-244, 78-82 *)
    | QPop => if negb de then (st, OErr NotImplementedError)
              else if l_size st =? 0 then (st, OErr IndexError)
              else of_node (sll_popright (fuel_of st) st)                         (* queue.py 246-251 *)
    | QPopLeft => if l_size st =? 0 then (st, OErr IndexError)
                  else of_node (sll_popleft (fuel_of st) st)                      (* queue.py 253-257 *)
    | QLen => (st, OInt (l_size st))                                              (* queue.py 271-272 *)
    | QEmpty => (st, OBool (l_size st =? 0))
    end.
  Definition lq_new (items : list A) : ll A :=                                    (* queue.py 222-227 *)
    fold_left (fun st x => fst (lq_step false st (QAppend x))) items (ll_new A).
End LLQueue.

Record aqueue (A : Type) := AQ { q_items : doda A; q_front : Z; q_rear : Z; q_de : bool }.
Arguments AQ {A}. Arguments q_items {A}. Arguments q_front {A}. Arguments q_rear {A}. Arguments q_de {A}.

Section ArrayQueue.
  Context {A : Type}.
  (** __new__ (queue.py 110-128), [items = None] as [[]] *)
  Definition aq_new (items : list A) (de : bool) : aqueue A :=
    match items with
    | [] => AQ (doda_new_size 0 1 4) (-1) (-1) de
    | _ => AQ (doda_new_list items 1 4) 0 (len items - 1) de
    end.
  (** __len__ / is_empty (queue.py 200-205) *)
  Definition aq_is_empty (q : aqueue A) : bool := d_num (q_items q) =? 0.

  (** [(self.items._num - 1)/self.items._size < self.items._load_factor] (queue.py 165-166, 184-185) *)
  Definition aq_will_shrink (d : doda A) : res bool :=
    if d_size d =? 0 then Raise ZeroDivisionError
    else Ret ((d_num d - 1) * d_ld d <? d_ln d * d_size d).

  (** append (queue.py 136-141) *)
  Definition aq_append (q : aqueue A) (x : A) : res (aqueue A * qout A) :=
    let front := if aq_is_empty q then 0 else q_front q in
    d <- doda_append (q_items q) x ;;
    Ret (AQ d front (q_rear q + 1) (q_de q), OUnit).

  (** appendleft (queue.py 143-154). The new array is built by OneDimensionalArray.__new__
      (arrays.py 116-121), which calls dtype(None) - a TypeError - on a None cell. *)
  Definition aq_appendleft (q : aqueue A) (x : A) : res (aqueue A * qout A) :=
    if negb (q_de q) then Raise NotImplementedError
    else
      let front := if aq_is_empty q then 0 else q_front q in
      let rear := if aq_is_empty q then -1 else q_rear q in
      temp <- forM (zrange front (rear + 1))
                (fun i temp => v <- lget (d_data (q_items q)) i ;;
                               match v with Some w => Ret (temp ++ [w]) | None => Raise TypeError end) [x] ;;
      Ret (AQ (doda_new_list temp 1 4) front (rear + 1) (q_de q), OUnit).

  (** popleft (queue.py 156-171) *)
  Definition aq_popleft (q : aqueue A) : res (aqueue A * qout A) :=
    if aq_is_empty q then Raise IndexError
    else
      v <- doda_get (q_items q) (q_front q) ;;
      ' (front, rear) <-
        (if q_front q =? q_rear q then Ret (-1, -1)
         else b <- aq_will_shrink (q_items q) ;;
              Ret (if b : bool then 0 else q_front q + 1, q_rear q)) ;;
      d <- doda_delete (q_items q) (q_front q) ;;
      Ret (AQ d front rear (q_de q), OVal v).

  (** pop (queue.py 173-190) *)
  Definition aq_pop (q : aqueue A) : res (aqueue A * qout A) :=
    if negb (q_de q) then Raise NotImplementedError
    else if aq_is_empty q then Raise IndexError
    else
      v <- doda_get (q_items q) (q_rear q) ;;
      ' (front, rear) <-
        (if q_front q =? q_rear q then Ret (-1, -1)
         else b <- aq_will_shrink (q_items q) ;;
              Ret (if b : bool then (0, q_rear q) else (q_front q, q_rear q - 1))) ;;
      d <- doda_delete (q_items q) (q_rear q) ;;
      Ret (AQ d front rear (q_de q), OVal v).

  Definition aq_step (q : aqueue A) (o : queue_op A) : aqueue A * qout A :=
    match o with
    | QAppend x => out_of q (aq_append q x)
    | QAppendLeft x => out_of q (aq_appendleft q x)
    | QPopLeft => out_of q (aq_popleft q)
    | QPop => out_of q (aq_pop q)
    | QLen => (q, OInt (d_num (q_items q)))
    | QEmpty => (q, OBool (aq_is_empty q))
    end.
End ArrayQueue.

(** run a history, collecting what the caller sees *)
Fixpoint run_hist {S O R} (step : S -> O -> S * R) (ops : list O) (s : S) : S * list R :=
  match ops with
  | [] => (s, [])
  | o :: ops' => let (s1, r) := step s o in let (s2, rs) := run_hist step ops' s1 in (s2, r :: rs)
  end.
