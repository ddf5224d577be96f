(** Model of pydatastructs/linear_data_structures/arrays.py (Python backend). *)
From Verif Require Import Base.

(** A mutating call leaves the old state in place when it raises. *)
Definition step_keep {S} (s : S) (m : res S) : S :=
  match m with Ret s' => s' | _ => s end.

(** ** OneDimensionalArray (arrays.py 19-153)
    [conv v] models the dtype coercion of a non-None element (lines 143-144 and 148):
    [v] itself if it already has the dtype, else [dtype(v)], which may raise.
    The state is the Python list [_data]; [_size] is always its length (lines 109, 113-115, 120). *)
Section ODA.
  Context {A B : Type} (conv : A -> res B).

  (** __new__ with a size and [init] (arrays.py 112-115) *)
  Definition oda_new_size (n : Z) (init : option B) : list (option B) :=
    repeat init (Z.to_nat n).

  (** __new__ with a list of elements (arrays.py 116-121): every element is coerced *)
  Fixpoint oda_new_list (l : list A) : res (list (option B)) :=
    match l with
    | [] => Ret []
    | x :: t => y <- conv x ;; r <- oda_new_list t ;; Ret (Some y :: r)
    end.

  (** __getitem__ (arrays.py 133-137) *)
  Definition oda_get (a : list (option B)) (i : Z) : res (option B) := aget a i.

  (** __setitem__ (arrays.py 139-145) *)
  Definition oda_set (a : list (option B)) (i : Z) (e : option A) : res (list (option B)) :=
    match e with
    | None => aset a i None
    | Some v => w <- conv v ;; aset a i (Some w)
    end.

  (** fill (arrays.py 147-150) *)
  Definition oda_fill (a : list (option B)) (v : A) : res (list (option B)) :=
    w <- conv v ;;
    forM (zrange 0 (len a)) (fun i a' => aset a' i (Some w)) a.

  (** __len__ (arrays.py 152-153) *)
  Definition oda_len (a : list (option B)) : Z := len a.

  Inductive oda_op := OSet (i : Z) (e : option A) | OFill (v : A).

  Definition oda_step (a : list (option B)) (o : oda_op) : list (option B) :=
    step_keep a match o with OSet i e => oda_set a i e | OFill v => oda_fill a v end.

  Definition oda_run := fold_left oda_step.
End ODA.

(** ** MultiDimensionalArray (arrays.py 155-280)
    The dtype is only used by [fill] (line 270); __setitem__ stores the element as it is. *)
Record mda (A : Type) := Mda { m_sizes : list Z; m_data : list (option A) }.
Arguments Mda {A}. Arguments m_sizes {A}. Arguments m_data {A}.

Section MDA.
  Context {A : Type} (conv : A -> res A).

  (** the [while n_dimensions > 1] loop of __new__ (arrays.py 221-232) *)
  Definition mda_sizes (dims : list Z) : list Z :=
    map (fun index => fold_left Z.mul (skipn (S index) dims) (nth index dims 0))
        (seq 0 (length dims - 1))
    ++ [nth (length dims - 1) dims 0; 1].

  (** __new__ (arrays.py 202-237) with at least the dtype and some dimensions *)
  Definition mda_new (dims : list Z) : res (mda A) :=
    match dims with
    | [] => Raise ValueError
    | [d] => Ret (Mda [d; 1] (repeat None (Z.to_nat d)))
    | d0 :: _ =>
      if existsb (fun d => d <? 1) dims then Raise ValueError
      else let sizes := mda_sizes dims in
           Ret (Mda sizes (repeat None (Z.to_nat (nth 1 sizes 0 * d0))))
    end.

  (** _compare_shape (arrays.py 262-267); an int index [i] is the tuple [[i]] *)
  Definition mda_compare_shape (m : mda A) (t : list Z) : res unit :=
    if negb (len t =? len (m_sizes m) - 1) then Raise IndexError
    else if existsb (fun p => snd p <=? fst p) (combine t (m_sizes m)) then Raise IndexError
    else Ret tt.

  (** the position loop (arrays.py 247-249, 257-259) *)
  Fixpoint mda_position (sizes : list Z) (t : list Z) : Z :=
    match t, sizes with
    | i :: t', _ :: ((s :: _) as sizes') => s * i + mda_position sizes' t'
    | _, _ => 0
    end.

  (** __getitem__ (arrays.py 243-250): the final access is on a Python list (negative wraps) *)
  Definition mda_get (m : mda A) (t : list Z) : res (option A) :=
    mda_compare_shape m t ;;; lget (m_data m) (mda_position (m_sizes m) t).

  (** __setitem__ (arrays.py 252-260) *)
  Definition mda_set (m : mda A) (t : list Z) (e : option A) : res (mda A) :=
    mda_compare_shape m t ;;;
    d <- aset (m_data m) (mda_position (m_sizes m) t) e ;; Ret (Mda (m_sizes m) d).

  (** fill (arrays.py 269-272) *)
  Definition mda_fill (m : mda A) (v : A) : res (mda A) :=
    w <- conv v ;;
    d <- forM (zrange 0 (len (m_data m))) (fun i d => aset d i (Some w)) (m_data m) ;;
    Ret (Mda (m_sizes m) d).

  (** shape (arrays.py 274-280) *)
  Fixpoint mda_shape_loop (sizes : list Z) : list Z :=
    match sizes with
    | p :: ((s :: _) as r) => p / s :: mda_shape_loop r
    | _ => []
    end.
  Definition mda_shape (m : mda A) : list Z := mda_shape_loop (m_sizes m).

  Inductive mda_op := MSet (t : list Z) (e : option A) | MFill (v : A).

  Definition mda_step (m : mda A) (o : mda_op) : mda A :=
    step_keep m match o with MSet t e => mda_set m t e | MFill v => mda_fill m v end.
  Definition mda_run := fold_left mda_step.
End MDA.

(** ** DynamicOneDimensionalArray (arrays.py 288-434)
    Fields: [_data], [_size], [_num], [_last_pos_filled]. The float [_load_factor] is the
    rational [ln/ld]; the test [_num/_size < _load_factor] is exact integer arithmetic here
    (the default 0.25 is exact in binary floating point). Elements are non-None values already of
    the array's dtype. *)
Record doda (A : Type) := Doda
  { d_data : list (option A); d_size : Z; d_num : Z; d_last : Z; d_ln : Z; d_ld : Z }.
Arguments Doda {A}. Arguments d_data {A}. Arguments d_size {A}. Arguments d_num {A}.
Arguments d_last {A}. Arguments d_ln {A}. Arguments d_ld {A}.

Section DODA.
  Context {A : Type}.

  (** __new__ (arrays.py 361-369) for an int size and for a list of elements *)
  Definition doda_new_size (n ln ld : Z) : doda A := Doda (repeat None (Z.to_nat n)) n 0 (-1) ln ld.
  Definition doda_new_list (l : list A) (ln ld : Z) : doda A :=
    Doda (map Some l) (len l) (len l) (len l - 1) ln ld.

  (** the compaction loop of _modify (arrays.py 388-394); state: new array and [j] *)
  Definition doda_compact (d : doda A) : res (list (option A) * Z) :=
    forM (zrange 0 (d_last d + 1))
      (fun i '(arr, j) =>
         x <- lget (d_data d) i ;;
         match x with
         | None => Ret (arr, j)
         | Some _ => y <- aget (d_data d) i ;; arr' <- aset arr j y ;; Ret (arr', j + 1)
         end)
      (repeat None (Z.to_nat (2 * d_num d + 1)), 0).

  (** _modify(force=False) (arrays.py 387-396) *)
  Definition doda_modify (d : doda A) : res (doda A) :=
    if d_size d =? 0 then Raise ZeroDivisionError
    else if d_num d * d_ld d <? d_ln d * d_size d then
      ' (arr, j) <- doda_compact d ;;
      Ret (Doda arr (2 * d_num d + 1) (d_num d) (j - 1) (d_ln d) (d_ld d))
    else Ret d.

  (** _modify(force=True) (arrays.py 382-396): first recompute [_last_pos_filled] from the end.
      [while self._data[i] is None: i -= 1] raises IndexError below -size. *)
  Fixpoint doda_last_some (rev_data : list (option A)) (i : Z) : res Z :=
    match rev_data with
    | [] => Raise IndexError
    | None :: r => doda_last_some r (i - 1)
    | Some _ :: _ => Ret i
    end.
  Definition doda_modify_force (d : doda A) : res (doda A) :=
    i <- doda_last_some (rev (d_data d)) (-1) ;;
    if d_size d =? 0 then Raise ZeroDivisionError
    else doda_modify (Doda (d_data d) (d_size d) (d_num d) (i mod d_size d) (d_ln d) (d_ld d)).

  (** append (arrays.py 398-410) *)
  Definition doda_append (d : doda A) (el : A) : res (doda A) :=
    d1 <- (if d_last d + 1 =? d_size d then
             arr <- forM (zrange 0 (d_last d + 1))
                      (fun i arr => x <- aget (d_data d) i ;; aset arr i x)
                      (repeat None (Z.to_nat (2 * d_size d + 1))) ;;
             arr' <- aset arr (d_last d + 1) (Some el) ;;
             Ret (Doda arr' (2 * d_size d + 1) (d_num d) (d_last d) (d_ln d) (d_ld d))
           else
             arr' <- aset (d_data d) (d_last d + 1) (Some el) ;;
             Ret (Doda arr' (d_size d) (d_num d) (d_last d) (d_ln d) (d_ld d))) ;;
    doda_modify (Doda (d_data d1) (d_size d1) (d_num d1 + 1) (d_last d1 + 1) (d_ln d1) (d_ld d1)).

  (** delete (arrays.py 412-419) *)
  Definition doda_delete (d : doda A) (idx : Z) : res (doda A) :=
    if (idx <=? d_last d) && (0 <=? idx) then
      x <- aget (d_data d) idx ;;
      match x with
      | None => Ret d
      | Some _ =>
        data <- aset (d_data d) idx None ;;
        doda_modify (Doda data (d_size d) (d_num d - 1)
                          (if d_last d =? idx then d_last d - 1 else d_last d) (d_ln d) (d_ld d))
      end
    else Ret d.

  (** __getitem__ is inherited (arrays.py 133-137): it compares with [_size] *)
  Definition doda_get (d : doda A) (i : Z) : res (option A) :=
    if (d_size d <=? i) || (i <? 0) then Raise IndexError else lget (d_data d) i.

  (** __reversed__ (arrays.py 432-434) *)
  Definition doda_reversed (d : doda A) : res (list (option A)) :=
    forM (zrange_down (d_last d) (-1)) (fun i acc => x <- lget (d_data d) i ;; Ret (acc ++ [x])) [].

  Inductive doda_op := DAppend (x : A) | DDelete (i : Z).
  (** one call; [None] would mean an exception escaped *)
  Definition doda_step (d : doda A) (o : doda_op) : res (doda A) :=
    match o with DAppend x => doda_append d x | DDelete i => doda_delete d i end.
  Definition doda_run (ops : list doda_op) (d : doda A) : res (doda A) :=
    forM ops (fun o d => doda_step d o) d.
End DODA.
Arguments doda_op : clear implicits.
Arguments oda_op : clear implicits.
Arguments mda_op : clear implicits.
