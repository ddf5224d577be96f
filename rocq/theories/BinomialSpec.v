(** Specification vocabulary for binomial heaps and priority queues. *)
From Verif Require Import Base BinomialModel.

Section S.
  Context {D : Type}.
  (** the (key, data) pairs stored in a node's subtree, in a heap *)
  Fixpoint b_elems (n : bnode D) : list (Z * D) :=
    let 'BN k d ch := n in (k, d) :: flat_map b_elems ch.
  Definition bh_elems (h : bheap D) : list (Z * D) := flat_map (fun t => b_elems (snd t)) h.
  (** the node addressed by tree position and path *)
  Definition bh_node (h : bheap D) (i : nat) (path : list nat) : option (bnode D) :=
    match nth_error h i with Some t => b_at (snd t) path | None => None end.
  (** orders strictly increase along root_list *)
  Fixpoint increasing (l : list Z) : Prop :=
    match l with
    | [] => True
    | x :: l' => Forall (fun y => x < y) l' /\ increasing l'
    end.
  Definition least (x : Z * D) (l : list (Z * D)) : Prop := forall y, In y l -> fst x <= fst y.
End S.

(** ** Priority queues *)
Section PQ.
  Context {P V : Type}.
  Inductive pq_op := PPush (v : V) (p : P) | PPop | PPeek | PEmpty.
  Inductive pq_out := PNone | PVal (v : V) | PNode (p : P) (v : V) | PBool (b : bool) | PErr (e : exn) | PFuel.
  (** [x] comes first in [l] for the priority order [le] *)
  Definition extremal (le : P -> P -> Prop) (x : P * V) (l : list (P * V)) : Prop := In x l /\ forall y, In y l -> le (fst x) (fst y).
  (** the histories a priority queue may show, from contents [l]: ties may be broken either way *)
  Inductive pq_allowed (le : P -> P -> Prop) : list (P * V) -> list pq_op -> list pq_out -> Prop :=
  | pa_nil l : pq_allowed le l [] []
  | pa_push l v p ops rs : pq_allowed le ((p, v) :: l) ops rs -> pq_allowed le l (PPush v p :: ops) (PNone :: rs)
  | pa_pop l p v l' ops rs : extremal le (p, v) l -> Permutation l ((p, v) :: l') -> pq_allowed le l' ops rs ->
      pq_allowed le l (PPop :: ops) (PVal v :: rs)
  | pa_pop_empty ops rs : pq_allowed le [] ops rs -> pq_allowed le [] (PPop :: ops) (PErr IndexError :: rs)
  | pa_peek l p v ops rs : extremal le (p, v) l -> pq_allowed le l ops rs -> pq_allowed le l (PPeek :: ops) (PNode p v :: rs)
  | pa_peek_empty ops rs : pq_allowed le [] ops rs -> pq_allowed le [] (PPeek :: ops) (PErr IndexError :: rs)
  | pa_empty l b ops rs : (b = true <-> l = []) -> pq_allowed le l ops rs -> pq_allowed le l (PEmpty :: ops) (PBool b :: rs).

  (** the stable (first-in first-out among ties) priority queue over the list of pushes, oldest first: [pq_first] splits
      off the oldest element that no other element strictly precedes *)
  Fixpoint pq_first (lt : P -> P -> bool) (l : list (P * V)) : option ((P * V) * list (P * V)) :=
    match l with
    | [] => None
    | x :: l' => match pq_first lt l' with
                 | None => Some (x, [])
                 | Some (y, r) => if lt (fst y) (fst x) then Some (y, x :: r) else Some (x, l')
                 end
    end.
  Definition pq_stable_step (lt : P -> P -> bool) (l : list (P * V)) (o : pq_op) : list (P * V) * pq_out :=
    match o with
    | PPush v p => (l ++ [(p, v)], PNone)
    | PPop => match pq_first lt l with Some ((_, v), r) => (r, PVal v) | None => (l, PErr IndexError) end
    | PPeek => match pq_first lt l with Some ((p, v), _) => (l, PNode p v) | None => (l, PErr IndexError) end
    | PEmpty => (l, PBool (match l with [] => true | _ => false end))
    end.
End PQ.
Arguments pq_op : clear implicits.
Arguments pq_out : clear implicits.
