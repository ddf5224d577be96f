(** Specification: histories that mix inserts and deletes on a BinarySearchTree, as they act on a sorted list of entries. Nothing here mentions the array. *)
From Verif Require Import Base TreeModel.

Section Hist2Spec.
  Context {D : Type}.
  Inductive bop := BIns (k : Z) (d : option D) | BDel (k : Z).
  (** the program: the calls one after the other, with what the deletes return *)
  Fixpoint perform (b : bst D) (ops : list bop) : res (bst D * list bool) :=
    match ops with
    | [] => Ret (b, [])
    | BIns k d :: ops' => b <- insert b k d ;; perform b ops'
    | BDel k :: ops' => ' (b, f) <- delete b k ;; ' (b, fs) <- perform b ops' ;; Ret (b, f :: fs)
    end.
  (** the entries by ascending key; how many new keys were inserted so far; the last of them; the key at the root *)
  Record bmap := mkbmap { s_ents : list (Z * option D); s_used : Z; s_newest : Z; s_rootk : Z }.
  Definition is_key (l : list (Z * option D)) (k : Z) : bool := existsb (fun e => fst e =? k) l.
  Definition put (k : Z) (d : option D) (l : list (Z * option D)) : list (Z * option D) :=
    filter (fun e => fst e <? k) l ++ (k, d) :: filter (fun e => k <? fst e) l.
  Definition take_out (k : Z) (l : list (Z * option D)) : list (Z * option D) := filter (fun e => negb (fst e =? k)) l.
  (** the next greater key *)
  Definition next_key (l : list (Z * option D)) (k : Z) : option Z := option_map fst (find (fun e => k <? fst e) l).
  (** the deletes the theorems speak of: neither the newest key nor the key just before it; the root's key only while there are smaller and greater keys; at
      least half of the keys ever inserted stay. Outside of these the code fails (C58_*_refuted). *)
  Definition may_delete (s : bmap) (k : Z) : bool :=
    negb (is_key (s_ents s) k) ||
    (negb (k =? s_newest s) && negb (oeqb (next_key (s_ents s) k) (Some (s_newest s))) &&
     (negb (k =? s_rootk s) || (existsb (fun e => fst e <? k) (s_ents s) && existsb (fun e => k <? fst e) (s_ents s))) &&
     (s_used s <=? 2 * (len (s_ents s) - 1))).
  Definition bmap_step (s : bmap) (o : bop) : option (bmap * list bool) :=
    match o with
    | BIns k d => Some (if is_key (s_ents s) k then mkbmap (put k d (s_ents s)) (s_used s) (s_newest s) (s_rootk s) else mkbmap (put k d (s_ents s)) (s_used s + 1) k (s_rootk s), [])
    | BDel k =>
      if may_delete s k then
        Some (mkbmap (take_out k (s_ents s)) (s_used s) (s_newest s) (if k =? s_rootk s then match next_key (s_ents s) k with Some k' => k' | None => k end else s_rootk s), [is_key (s_ents s) k])
      else None
    end.
  (** None: some delete is not one of those the theorems speak of *)
  Fixpoint bmap_run (s : bmap) (ops : list bop) : option (bmap * list bool) :=
    match ops with
    | [] => Some (s, [])
    | o :: ops' => match bmap_step s o with Some (s, f) => match bmap_run s ops' with Some (s, fs) => Some (s, f ++ fs) | None => None end | None => None end
    end.
  Definition bmap_first (k : Z) (d : option D) : bmap := mkbmap [(k, d)] 1 k k.
End Hist2Spec.
Arguments bop : clear implicits.
Arguments bmap : clear implicits.
