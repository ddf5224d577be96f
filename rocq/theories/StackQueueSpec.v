(** Specification: abstract stack and deque on plain lists. *)
From Verif Require Import Base StackQueueModel LinkedProofs.

Section Spec.
  Context {A : Type}.
  (** top of the stack at the end of the list; [pe] is what peek shows on an empty stack *)
  Definition stack_spec (pe : qout A) (l : list A) (o : stack_op A) : list A * qout A :=
    match o with
    | SPush x => (l ++ [x], OUnit)
    | SPop => match last_error l with None => (l, OErr IndexError) | Some x => (removelast l, OVal (Some x)) end
    | SPeek => match last_error l with None => (l, pe) | Some x => (l, OVal (Some x)) end
    | SLen => (l, OInt (len l))
    | SEmpty => (l, OBool (match l with [] => true | _ => false end))
    end.

  (** front of the queue at the head of the list *)
  Definition deque_spec (de : bool) (l : list A) (o : queue_op A) : list A * qout A :=
    match o with
    | QAppend x => (l ++ [x], OUnit)
    | QAppendLeft x => if de then (x :: l, OUnit) else (l, OErr NotImplementedError)
    | QPopLeft => match l with [] => (l, OErr IndexError) | x :: l' => (l', OVal (Some x)) end
    | QPop => if de then match last_error l with
                         | None => (l, OErr IndexError)
                         | Some x => (removelast l, OVal (Some x))
                         end
              else (l, OErr NotImplementedError)
    | QLen => (l, OInt (len l))
    | QEmpty => (l, OBool (match l with [] => true | _ => false end))
    end.

  (** the histories on which ArrayQueue is proved right: [l] the queue, [c] the number of poplefts
      since the queue was last empty, [any] whether anything was ever removed *)
  Fixpoint aq_hist_ok (de : bool) (ops : list (queue_op A)) (l : list A) (c : Z) (any : bool) : Prop :=
    match ops with
    | [] => True
    | o :: ops' =>
      match o with
      | QAppend x => c <= len l /\ aq_hist_ok de ops' (l ++ [x]) c any
      | QAppendLeft x => if de then any = false /\ aq_hist_ok de ops' (x :: l) c any else aq_hist_ok de ops' l c any
      | QPopLeft => match l with
                    | [] => aq_hist_ok de ops' [] 0 any
                    | [_] => aq_hist_ok de ops' [] 0 true
                    | _ :: l' => aq_hist_ok de ops' l' (c + 1) true
                    end
      | QPop => (de = false \/ l = []) /\ aq_hist_ok de ops' l c any
      | QLen | QEmpty => aq_hist_ok de ops' l c any
      end
    end.
End Spec.
