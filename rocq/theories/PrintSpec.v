(** Specification for printing (C128-C133). *)
From Verif Require Import Base StackQueueModel SkipModel.

(** the histories after which printing an ArrayQueue is proved right: as [aq_hist_ok] (StackQueueSpec), and moreover a popleft that leaves
    something behind leaves at least as much as was removed since the queue was last empty. [l] the queue, [c] the removals since it
    was last empty, [any] whether anything was ever removed *)
Fixpoint aq_print_ok {A} (de : bool) (ops : list (queue_op A)) (l : list A) (c : Z) (any : bool) : Prop :=
  match ops with
  | [] => True
  | o :: ops' =>
    match o with
    | QAppend x => aq_print_ok de ops' (l ++ [x]) c any
    | QAppendLeft x => if de then any = false /\ aq_print_ok de ops' (x :: l) c any else aq_print_ok de ops' l c any
    | QPopLeft => match l with
                  | [] => aq_print_ok de ops' [] 0 any
                  | [_] => aq_print_ok de ops' [] 0 true
                  | _ :: l' => c + 1 <= len l' /\ aq_print_ok de ops' l' (c + 1) true
                  end
    | QPop => (de = false \/ l = []) /\ aq_print_ok de ops' l c any
    | QLen | QEmpty => aq_print_ok de ops' l c any
    end
  end.

(** the pairs of a level of a skip list, without the two ends *)
Definition level_pairs {D} (lv : list (xkey * option D)) : list (Z * option D) :=
  flat_map (fun e => match fst e with Fin k => [(k, snd e)] | _ => [] end) lv.
(** the row printed for the pairs [lv] of a level when the bottom level has the keys [ks]: one cell per key of [ks]; empty if the key comes
    again later in [ks], otherwise the last pair of the level with that key *)
Fixpoint skip_row {D} (lv : list (Z * option D)) (ks : list Z) : list (option (Z * option D)) :=
  match ks with
  | [] => []
  | k :: ks => (if existsb (Z.eqb k) ks then None else find (fun e => fst e =? k) (rev lv)) :: skip_row lv ks
  end.
