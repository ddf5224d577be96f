(** Model of DisjointSetForest (pydatastructs/miscellaneous_data_structures/disjoint_set.py 7-143).
    [tree] is the dict, in insertion order: key -> (key of parent Set, size). Every Set object is created by make_set, stored in the dict
    under its key and never replaced, so a reference to a Set is represented by its key and [is] by equality of keys.
    [data] is not modelled (nothing reads it). *)
From Verif Require Import Base.

Section Dsf.
  Context {K : Type} (eqb : K -> K -> bool).
  Notation dsf := (list (K * (K * Z))).

  (** dict lookup / item assignment on an existing key *)
  Fixpoint dget {V} (t : list (K * V)) (k : K) : option V :=
    match t with [] => None | (k', v) :: t' => if eqb k k' then Some v else dget t' k end.
  Fixpoint dset {V} (t : list (K * V)) (k : K) (v : V) : list (K * V) :=
    match t with [] => [(k, v)] | (k', v') :: t' => if eqb k k' then (k', v) :: t' else (k', v') :: dset t' k v end.

  Definition par (t : dsf) (k : K) : option K := option_map fst (dget t k).
  Definition siz (t : dsf) (k : K) : option Z := option_map snd (dget t k).
  Definition set_parent (t : dsf) (k p : K) : dsf := match dget t k with Some (_, s) => dset t k (p, s) | None => t end.
  Definition set_size (t : dsf) (k : K) (s : Z) : dsf := match dget t k with Some (p, _) => dset t k (p, s) | None => t end.
  (** attribute reads *)
  Definition get_parent (t : dsf) (k : K) : res K := match par t k with Some p => Ret p | None => Raise AttributeError end.
  Definition get_size (t : dsf) (k : K) : res Z := match siz t k with Some s => Ret s | None => Raise AttributeError end.

  (** make_set (disjoint_set.py 52-62) *)
  Definition make_set (t : dsf) (key : K) : dsf :=
    match dget t key with None => dset t key (key, 1) | Some _ => t end.

  (** the loop of find_root (73-74). [_set, _set.parent = _set.parent, _set.parent.parent] assigns left to right: _set becomes
      p = old _set.parent and then p.parent := p.parent, both as evaluated before; the store has no effect but is kept. *)
  Definition find_loop (fuel : nat) (t : dsf) (s : K) : res (K * dsf) :=
    while_loop fuel (fun '(s, t) =>
      p <- get_parent t s ;;
      if eqb p s then Ret (Break (s, t))
      else pp <- get_parent t p ;; Ret (Next (p, set_parent t p pp))) (s, t).
  (** find_root (64-75) *)
  Definition find_root_fuel (fuel : nat) (t : dsf) (key : K) : res (K * dsf) :=
    match dget t key with None => Raise KeyError | Some _ => find_loop fuel t key end.
  Definition find_root (t : dsf) (key : K) : res (K * dsf) := find_root_fuel (S (length t)) t key.

  (** union (77-91) *)
  Definition dsf_union (t : dsf) (key1 key2 : K) : res dsf :=
    ' (x_root, t) <- find_root t key1 ;;
    ' (y_root, t) <- find_root t key2 ;;
    if negb (eqb x_root y_root) then
      sx <- get_size t x_root ;; sy <- get_size t y_root ;;
      let '(x_root, y_root) := if sx <? sy then (y_root, x_root) else (x_root, y_root) in
      let t := set_parent t y_root x_root in
      sx <- get_size t x_root ;; sy <- get_size t y_root ;;
      Ret (set_size t x_root (sx + sy))
    else Ret t.

  (** make_root (93-117) *)
  Definition make_root (t : dsf) (key : K) : res dsf :=
    match dget t key with
    | None => Raise KeyError
    | Some (p, ks) =>
      if eqb p key then Ret t
      else
        ' (current_parent, t) <- while_loop (S (length t)) (fun '(cp, t) =>
           pp <- get_parent t cp ;;
           if eqb pp cp then Ret (Break (cp, t))
           else s <- get_size t cp ;; ks <- get_size t key ;; Ret (Next (pp, set_size t cp (s - ks)))) (p, t) ;;
        all_set_size <- get_size t current_parent ;;
        ks <- get_size t key ;;
        let t := set_size t current_parent (all_set_size - ks) in
        let t := set_parent t current_parent key in
        let t := set_size t key all_set_size in
        Ret (set_parent t key key)
    end.

  (** find_size (119-126) *)
  Definition find_size (t : dsf) (key : K) : res (Z * dsf) :=
    ' (r, t) <- find_root t key ;; s <- get_size t r ;; Ret (s, t).

  (** disjoint_sets (128-143) without the two sorts at the end (138-142): the groups in order of first member *)
  Definition disjoint_sets (t : dsf) : res (list (list K)) :=
    ' (result, _) <- forM (map fst t) (fun key '(result, t) =>
      ' (parent, t) <- find_root t key ;;
      let members := match dget result parent with Some m => m | None => [] end in
      Ret (dset result parent (members ++ [key]), t)) ([], t) ;;
    Ret (map snd result).

  Inductive dsf_op := DMake (k : K) | DUnion (a b : K) | DRoot (k : K) | DFind (k : K).
  (** one call; what it returns is not kept (see the theorems), a raised call changes nothing *)
  Definition dsf_step (t : dsf) (o : dsf_op) : res dsf :=
    match o with
    | DMake k => Ret (make_set t k)
    | DUnion a b => match dsf_union t a b with Raise KeyError => Ret t | r => r end
    | DRoot k => match make_root t k with Raise KeyError => Ret t | r => r end
    | DFind k => match find_root t k with Ret (_, t') => Ret t' | Raise KeyError => Ret t | Raise e => Raise e | OutOfFuel => OutOfFuel end
    end.
  Definition dsf_run (ops : list dsf_op) (t : dsf) : res dsf := forM ops (fun o t => dsf_step t o) t.
End Dsf.
Arguments dsf_op : clear implicits.
