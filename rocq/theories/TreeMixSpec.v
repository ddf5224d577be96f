(** Specification: histories that mix inserts and deletes on the self-balancing trees, as they act on a sorted list of entries. Nothing here mentions
    the array or the shape of the tree. *)
From Verif Require Import Base TreeModel TreeModel2 TreeHist2Spec.

Section MixSpec.
  Context {D : Type}.
  (** the program: the calls one after the other, with what the deletes return *)
  Fixpoint perform_with (ins : bst D -> Z -> option D -> res (bst D)) (del : bst D -> Z -> res (bst D * bool)) (b : bst D) (ops : list (bop D)) : res (bst D * list bool) :=
    match ops with
    | [] => Ret (b, [])
    | BIns k d :: ops' => b <- ins b k d ;; perform_with ins del b ops'
    | BDel k :: ops' => ' (b, f) <- del b k ;; ' (b, fs) <- perform_with ins del b ops' ;; Ret (b, f :: fs)
    end.
  (** the entries by ascending key; how many new keys were inserted so far; the last of them *)
  Record mmap := mkmmap { m_ents : list (Z * option D); m_used : Z; m_newest : Z }.
  Definition m_first (k : Z) (d : option D) : mmap := mkmmap [(k, d)] 1 k.
  Definition m_put (k : Z) (d : option D) (s : mmap) : mmap :=
    if is_key (m_ents s) k then mkmmap (put k d (m_ents s)) (m_used s) (m_newest s) else mkmmap (put k d (m_ents s)) (m_used s + 1) k.
  Definition m_take (k : Z) (s : mmap) : mmap := mkmmap (take_out k (m_ents s)) (m_used s) (m_newest s).
  (** may_ins and may_del say which calls a theorem speaks of. None: some call is not one of them. With the state and whether the deleted keys were there. *)
  Fixpoint m_run (may_ins may_del : mmap -> Z -> bool) (s : mmap) (ops : list (bop D)) : option (mmap * list bool) :=
    match ops with
    | [] => Some (s, [])
    | BIns k d :: ops' => if may_ins s k then m_run may_ins may_del (m_put k d s) ops' else None
    | BDel k :: ops' =>
      if may_del s k then match m_run may_ins may_del (m_take k s) ops' with Some (s', fs) => Some (s', is_key (m_ents s) k :: fs) | None => None end else None
    end.
  Definition always (s : mmap) (k : Z) : bool := true.
  Definition absent_key (s : mmap) (k : Z) : bool := negb (is_key (m_ents s) k).
  (** an absent key, or: neither the newest key nor the key just before it, at least two keys stay, and at least half of the keys ever inserted stay. Outside
      of these the code fails. *)
  Definition spare_newest (s : mmap) (k : Z) : bool :=
    absent_key s k || (negb (k =? m_newest s) && negb (oeqb (next_key (m_ents s) k) (Some (m_newest s))) && (3 <=? len (m_ents s)) && (m_used s <=? 2 * (len (m_ents s) - 1))).
  (** a tree is made, with or without a first entry, and the calls follow *)
  Definition history_with (ins : bst D -> Z -> option D -> res (bst D)) (del : bst D -> Z -> res (bst D * bool)) (start : option (Z * D)) (os : bool) (ops : list (bop D)) : res (bst D * list bool) :=
    b <- bst_new (option_map fst start) (option_map snd start) None os ;; perform_with ins del b ops.
  Definition m_history (may_ins may_del : mmap -> Z -> bool) (start : option (Z * D)) (ops : list (bop D)) : option (mmap * list bool) :=
    match start, ops with
    | Some (k, d), _ => m_run may_ins may_del (m_first k (Some d)) ops
    | None, BIns k d :: ops' => m_run may_ins may_del (m_first k d) ops'
    | None, _ => None
    end.
  (** neither the newest key, nor the last one, and at least half of the keys ever inserted stay *)
  Definition keep_newest (s : mmap) (k : Z) : bool := absent_key s k || (negb (k =? m_newest s) && (2 <=? len (m_ents s)) && (m_used s <=? 2 * (len (m_ents s) - 1))).
  (** SplayTree: an insert of a new key, or again of the newest *)
  Definition absent_or_newest (s : mmap) (k : Z) : bool := absent_key s k || (k =? m_newest s).
  (** an absent key, or: neither the newest key nor the key just before it, neither the least nor the greatest key, and at least half of the keys ever inserted stay *)
  Definition spare_ends (s : mmap) (k : Z) : bool :=
    absent_key s k || (negb (k =? m_newest s) && negb (oeqb (next_key (m_ents s) k) (Some (m_newest s))) && existsb (fun e => fst e <? k) (m_ents s) && existsb (fun e => k <? fst e) (m_ents s) && (m_used s <=? 2 * (len (m_ents s) - 1))).
  (** RedBlackTree. The greatest key below k *)
  Definition prev_key (l : list (Z * option D)) (k : Z) : option Z := option_map fst (find (fun e => fst e <? k) (rev l)).
  (** an absent key, or: neither the newest key nor the key just after it, at least two keys stay, and at least half of the keys ever inserted stay *)
  Definition spare_older (s : mmap) (k : Z) : bool :=
    absent_key s k || (negb (k =? m_newest s) && negb (oeqb (prev_key (m_ents s) k) (Some (m_newest s))) && (3 <=? len (m_ents s)) && (m_used s <=? 2 * (len (m_ents s) - 1))).
  (** CartesianTree and Treap: an insert has a priority *)
  Inductive pop := PIns (k p : Z) (d : option D) | PDel (k : Z).
  Fixpoint perform_prio (b : bst D) (ops : list pop) : res (bst D * list bool) :=
    match ops with
    | [] => Ret (b, [])
    | PIns k p d :: ops' => b <- cart_insert b k p d ;; perform_prio b ops'
    | PDel k :: ops' => ' (b, f) <- cart_delete b k ;; ' (b, fs) <- perform_prio b ops' ;; Ret (b, f :: fs)
    end.
  Definition no_prio (o : pop) : bop D := match o with PIns k p d => BIns k d | PDel k => BDel k end.
End MixSpec.
Arguments pop : clear implicits.
Arguments mmap : clear implicits.
