(** Specification for SkipList (C14): a bag of pairs, the newest first. *)
From Verif Require Import Base SkipModel.

(** the first pair with key [k], and the others *)
Fixpoint take_key {D} (k : Z) (bag : list (Z * option D)) : option (option D * list (Z * option D)) :=
  match bag with
  | [] => None
  | (z, d) :: rest => if z =? k then Some (d, rest) else match take_key k rest with Some (d', rest') => Some (d', (z, d) :: rest') | None => None end
  end.
(** what each call should do to the bag and return, whatever the random bits *)
Definition bag_step {D} (bag : list (Z * option D)) (o : sop D) : list (Z * option D) * sout D :=
  match o with
  | SInsert k d _ => ((k, d) :: bag, ODone)
  | SExtract k => match take_key k bag with Some (d, rest) => (rest, ONode k d) | None => (bag, OKeyError) end
  | SSearch k => (bag, OFound (existsb (fun e => fst e =? k) bag))
  | SSize => (bag, OSize (len bag))
  end.
Fixpoint bag_run {D} (bag : list (Z * option D)) (ops : list (sop D)) : list (Z * option D) * list (sout D) :=
  match ops with [] => (bag, []) | o :: ops => let '(bag, r) := bag_step bag o in let '(bag, rs) := bag_run bag ops in (bag, r :: rs) end.

(** the nodes of a level, read from a node by following next up to a node with key math.inf, and the levels below *)
Fixpoint read_right {D} (fuel : nat) (h : list (snode D)) (p : option nat) : list (xkey * option D) :=
  match fuel, p with
  | S f, Some a => match nth_error h a with Some c => (s_key c, s_data c) :: match s_key c with PInf => [] | _ => read_right f h (s_next c) end | None => [] end
  | _, _ => []
  end.
Fixpoint read_levels {D} (fuel : nat) (h : list (snode D)) (p : option nat) : list (list (xkey * option D)) :=
  match fuel, p with
  | S f, Some a => read_right (S (length h)) h p :: match nth_error h a with Some c => read_levels f h (s_down c) | None => [] end
  | _, _ => []
  end.
(** the levels of a skip list, from the top *)
Definition skip_levels {D} (st : skip D) : list (list (xkey * option D)) := read_levels (S (length (k_heap st))) (k_heap st) (k_head st).
Fixpoint ascending (l : list Z) : Prop := match l with [] => True | a :: l => Forall (fun b => a <= b) l /\ ascending l end.
Inductive sublist {A : Type} : list A -> list A -> Prop :=
| sub_nil : sublist [] []
| sub_skip x l m : sublist l m -> sublist l (x :: m)
| sub_keep x l m : sublist l m -> sublist (x :: l) (x :: m).
