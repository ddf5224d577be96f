(** Model of SkipList (pydatastructs/linear_data_structures/linked_lists.py 634-806) on an explicit heap of SkipNodes
    (utils/misc_util.py 327-362). The address of a node is its index in the heap, so "is" is equality of addresses. Cells are never freed.
    Keys are integers, math.inf and -math.inf. Reading an attribute of None raises AttributeError.
    random.getrandbits(1): the i-th bit drawn in a call of insert is 0 iff [flips i] is true; [flips] is an argument of insert.
    __str__, which formats the message of the KeyError of extract, is PrintModel.skip_printed; it never fails (C133). *)
From Verif Require Import Base.

Inductive xkey := NInf | Fin (k : Z) | PInf.
(** x >= key and x == key for a finite key *)
Definition xge (x : xkey) (k : Z) : bool := match x with NInf => false | Fin z => k <=? z | PInf => true end.
Definition xeq (x : xkey) (k : Z) : bool := match x with Fin z => z =? k | _ => false end.

Record snode (D : Type) := SN { s_key : xkey; s_data : option D; s_next : option nat; s_down : option nat }.
Arguments SN {D}. Arguments s_key {D}. Arguments s_data {D}. Arguments s_next {D}. Arguments s_down {D}.
Record skip (D : Type) := SK { k_heap : list (snode D); k_head : option nat; k_tail : option nat; k_levels : Z; k_num : Z }.
Arguments SK {D}. Arguments k_heap {D}. Arguments k_head {D}. Arguments k_tail {D}. Arguments k_levels {D}. Arguments k_num {D}.

Section Skip.
  Context {D : Type}.
  Notation heap := (list (snode D)).
  (** attribute access *)
  Definition sderef (h : heap) (p : option nat) : res (snode D) :=
    match p with None => Raise AttributeError | Some a => match nth_error h a with Some c => Ret c | None => Raise AttributeError end end.
  (** node.next = q *)
  Definition ssetnext (h : heap) (a : nat) (q : option nat) : heap :=
    match nth_error h a with Some c => upd h a (SN (s_key c) (s_data c) q (s_down c)) | None => h end.

  (** _add_level (682-685) *)
  Definition add_level (st : skip D) : skip D :=
    let t := length (k_heap st) in
    SK (k_heap st ++ [SN PInf None None (k_tail st); SN NInf None (Some t) (k_head st)]) (Some (S t)) (Some t) (k_levels st + 1) (k_num st).
  (** __new__ (667-675) *)
  Definition skip_new : skip D := add_level (SK [] None None 0 0).

  (** _search (695-704): the nodes of the path. Every round moves to another node, so the number of cells bounds the number of rounds *)
  Definition skip_path (st : skip D) (key : Z) : res (list nat) :=
    while_loop (S (length (k_heap st))) (fun '(path, node) =>
      match node with
      | None => Ret (Break path)
      | Some a =>
        n <- sderef (k_heap st) (Some a) ;; nx <- sderef (k_heap st) (s_next n) ;;
        if xge (s_key nx) key then Ret (Next (path ++ [a], s_down n)) else Ret (Next (path, s_next n))
      end) ([], k_head st).
  (** search (706-707) *)
  Definition skip_search (st : skip D) (key : Z) : res bool :=
    path <- skip_path st key ;; tip <- lget path (len path - 1) ;; n <- sderef (k_heap st) (Some tip) ;; nx <- sderef (k_heap st) (s_next n) ;;
    Ret (xeq (s_key nx) key).
  (** insert (709-737) *)
  Definition skip_insert (st : skip D) (key : Z) (data : option D) (flips : nat -> bool) : res (skip D) :=
    path <- skip_path st key ;; tip <- lget path (len path - 1) ;; n <- sderef (k_heap st) (Some tip) ;;
    let below := length (k_heap st) in
    let h := ssetnext (k_heap st ++ [SN (Fin key) data (s_next n) None]) tip (Some below) in
    let total_level := k_levels st in
    st <- while_loop (S (Z.to_nat total_level)) (fun '(st, below, level) =>
      if flips (Z.to_nat (level - 1)) && (level <=? total_level) then
        ' (st, prev) <- (if level =? total_level then let st := add_level st in match k_head st with Some p => Ret (st, p) | None => Raise AttributeError end
                         else prev <- lget path (total_level - 1 - level) ;; Ret (st, prev)) ;;
        n <- sderef (k_heap st) (Some prev) ;;
        let b := length (k_heap st) in
        Ret (Next (SK (ssetnext (k_heap st ++ [SN (Fin key) None (s_next n) (Some below)]) prev (Some b)) (k_head st) (k_tail st) (k_levels st) (k_num st), b, level + 1))
      else Ret (Break st)) (SK h (k_head st) (k_tail st) (k_levels st) (k_num st), below, 1) ;;
    Ret (SK (k_heap st) (k_head st) (k_tail st) (k_levels st) (k_num st + 1)).
  (** extract (743-774): the key and data of the new node that is returned, and the list *)
  Definition skip_extract (st : skip D) (key : Z) : res (xkey * option D * skip D) :=
    path <- skip_path st key ;; tip <- lget path (len path - 1) ;; n <- sderef (k_heap st) (Some tip) ;; nx <- sderef (k_heap st) (s_next n) ;;
    if negb (xeq (s_key nx) key) then Raise KeyError
    else
      let return_node := (s_key nx, s_data nx) in
      h <- while_loop (S (Z.to_nat (k_levels st))) (fun '(h, level) =>
        if 0 <=? level then
          p <- lget path level ;; n <- sderef h (Some p) ;; nx <- sderef h (s_next n) ;;
          if xeq (s_key nx) key then Ret (Next (ssetnext h p (s_next nx), level - 1)) else Ret (Break h)
        else Ret (Break h)) (k_heap st, k_levels st - 1) ;;
      ' (head, tail, levels) <- while_loop (S (S (Z.to_nat (k_levels st)))) (fun '(walk, head, tail, levels) =>
        match walk with
        | None => Ret (Break (head, tail, levels))
        | Some w =>
          n <- sderef h (Some w) ;;
          if match s_next n, tail with Some a, Some b => (a =? b)%nat | None, None => true | _, _ => false end then
            t <- sderef h tail ;; Ret (Next (s_down n, s_down n, s_down t, levels - 1))
          else Ret (Break (head, tail, levels))
        end) (k_head st, k_head st, k_tail st, k_levels st) ;;
      let st := SK h head tail levels (k_num st - 1) in
      Ret (return_node, if k_levels st =? 0 then add_level st else st).
End Skip.

(** histories (no citation: calls of the API; what a caller sees of each) *)
Inductive sop (D : Type) := SInsert (k : Z) (d : option D) (flips : nat -> bool) | SExtract (k : Z) | SSearch (k : Z) | SSize.
Arguments SInsert {D}. Arguments SExtract {D}. Arguments SSearch {D}. Arguments SSize {D}.
Inductive sout (D : Type) := ODone | ONode (k : Z) (d : option D) | OKeyError | OFound (b : bool) | OSize (n : Z) | OWrong.
Arguments ODone {D}. Arguments ONode {D}. Arguments OKeyError {D}. Arguments OFound {D}. Arguments OSize {D}. Arguments OWrong {D}.
Definition skip_step {D} (st : skip D) (o : sop D) : res (skip D * sout D) :=
  match o with
  | SInsert k d flips => st <- skip_insert st k d flips ;; Ret (st, ODone)
  | SExtract k => match skip_extract st k with Ret (Fin z, d, st) => Ret (st, ONode z d) | Ret (_, _, st) => Ret (st, OWrong) | Raise KeyError => Ret (st, OKeyError) | Raise e => Raise e | OutOfFuel => OutOfFuel end
  | SSearch k => b <- skip_search st k ;; Ret (st, OFound b)
  | SSize => Ret (st, OSize (k_num st))
  end.
Fixpoint skip_run {D} (st : skip D) (ops : list (sop D)) : res (skip D * list (sout D)) :=
  match ops with [] => Ret (st, []) | o :: ops => ' (st, r) <- skip_step st o ;; ' (st, rs) <- skip_run st ops ;; Ret (st, r :: rs) end.
