(** Where ArrayQueue keeps its items: a small machine on three numbers that says how far the class can be trusted. Independent of the model of the class. *)
From Verif Require Import Base StackQueueModel StackQueueSpec.

Section Place.
  Context {A : Type}.
  (** the front index, the rear index and the number of cells *)
  Definition place0 (items : list A) : Z * Z * Z :=
    match items with [] => (-1, -1, 0) | _ => (0, len items - 1, len items) end.
  (** cells left when [n] items remain in [cap] cells: contracted below a quarter *)
  Definition contracts (n cap : Z) : bool := n * 4 <? cap.
  Definition cells_after (n cap : Z) : Z := if contracts n cap then 2 * n + 1 else cap.
  (** one operation on a queue that holds [l]; None: from here on it goes wrong *)
  Definition place_step (de : bool) (l : list A) (p : Z * Z * Z) (o : queue_op A) : option (Z * Z * Z) :=
    let '(f, r, cap) := p in
    match o, l with
    | QAppend _, [] => Some (0, r + 1, 1)
    | QAppend _, _ =>
        if f + len l =? cap then (if len l + 2 <=? f then None else Some (f, r + 1, 2 * cap + 1)) else Some (f, r + 1, cap)
    | QPopLeft, _ :: _ =>
        Some (if f =? r then (-1, -1, cells_after (len l - 1) cap)
              else if contracts (len l - 1) cap then (0, r, cells_after (len l - 1) cap) else (f + 1, r, cap))
    | QAppendLeft _, [] => if de then Some (0, 0, 1) else Some p
    | QAppendLeft _, _ => if de then (if (f =? 0) && (r =? len l - 1) then Some (0, r + 1, len l + 1) else None) else Some p
    | QPop, _ :: _ =>
        if de then (if r =? f + len l - 1 then
              Some (if f =? r then (-1, -1, cells_after (len l - 1) cap)
                    else if contracts (len l - 1) cap then (0, r, cells_after (len l - 1) cap) else (f, r - 1, cap))
            else None) else Some p
    | _, _ => Some p
    end.
  Fixpoint place_run (de : bool) (ops : list (queue_op A)) (l : list A) (p : Z * Z * Z) : option (list A * (Z * Z * Z)) :=
    match ops with
    | [] => Some (l, p)
    | o :: ops => match place_step de l p o with None => None | Some p' => place_run de ops (fst (deque_spec de l o)) p' end
    end.
End Place.
