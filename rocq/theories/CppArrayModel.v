(** Model of the C++ backend of the arrays and of ArrayStack:
    pydatastructs/linear_data_structures/_backend/cpp/arrays/OneDimensionalArray.hpp, DynamicOneDimensionalArray.hpp and
    pydatastructs/miscellaneous_data_structures/_backend/cpp/stack/ArrayStack.hpp.

    - A cell holds a pointer to a Python object, [None] being Py_None. Objects are the values of [A]; [same] is pointer identity.
    - [isinst x] is PyObject_IsInstance(x, dtype).
    - [rc x] is the interpreter's reference count of [x]; None is never freed and is not counted.
    - A buffer is the list of its cells. Reading or writing outside a malloc'ed buffer is undefined behaviour ([undefined]). *)
From Verif Require Import Base ArraysModel StackQueueModel.

Definition undefined {A} : res A := OutOfFuel.

(** ** OneDimensionalArray (OneDimensionalArray.hpp) *)
Section Oda.
  Context {A : Type} (same : A -> A -> bool) (isinst : A -> bool).

  Record coda := Coda { ca_data : list (option A); ca_rc : A -> Z }.
  (** Py_INCREF / Py_XDECREF *)
  Definition addref (rc : A -> Z) (e : option A) (d : Z) : A -> Z :=
    match e with None => rc | Some x => fun y => if same x y then rc y + d else rc y end.
  (** PyObject_IsInstance failing for a non-None value (lines 288-292, 312-314; utils.hpp 70-90) *)
  Definition mismatch (e : option A) : bool := match e with None => false | Some x => negb (isinst x) end.

  (** __new__ with an int size and the keyword [init] (lines 147-179): PyObject_GetItem(kwds, "init") gives one new reference,
      and every cell gets the pointer; a negative size is an OverflowError of PyLong_AsSize_t *)
  Definition cpp_new_size (n : Z) (init : option A) (rc : A -> Z) : res coda :=
    if n <? 0 then Raise OverflowError
    else if mismatch init then Raise TypeError
    else Ret (Coda (repeat init (Z.to_nat n)) (addref rc init 1)).
  (** __new__ with a list or tuple (lines 181-223): PyObject_GetItem gives a new reference for each cell.
      The elements are the list's non-None objects or None; None is not an instance of any usable dtype, so it is refused too
      (raise_exception_if_dtype_mismatch has no test for None here). On failure the references taken so far are dropped. *)
  Fixpoint cpp_new_list_loop (l : list (option A)) (data : list (option A)) (rc : A -> Z) : res coda :=
    match l with
    | [] => Ret (Coda data rc)
    | e :: l' => match e with
                 | None => Raise TypeError
                 | Some x => if isinst x then cpp_new_list_loop l' (data ++ [e]) (addref rc e 1) else Raise TypeError
                 end
    end.
  Definition cpp_new_list (l : list (option A)) (rc : A -> Z) : res coda := cpp_new_list_loop l [] rc.

  (** the calls a client makes: reading a cell gives the client a reference, which it may let go of later *)
  Inductive coda_op := CGet (i : Z) | CSet (i : Z) (e : option A) | CFill (e : option A) | CLen | CDrop (x : A).
  Inductive coda_out := CVal (e : option A) | CUnit | CInt (n : Z) | CErr (e : exn).

  (** one call; [ext] is the number of references the client itself holds *)
  Definition coda_step (s : coda * (A -> Z)) (o : coda_op) : (coda * (A -> Z)) * coda_out :=
    let '(st, ext) := s in
    let data := ca_data st in let rc := ca_rc st in
    match o with
    | CGet i =>                                                                       (* lines 243-265 *)
      if (i <? 0) || (len data <=? i) then (s, CErr IndexError)
      else match nth_error data (Z.to_nat i) with
           | Some e => ((Coda data (addref rc e 1), addref ext e 1), CVal e)
           | None => (s, CErr IndexError)
           end
    | CSet i e =>                                                                     (* lines 267-302 *)
      if (i <? 0) || (len data <=? i) then (s, CErr IndexError)
      (* set_exception_if_dtype_mismatch (utils.hpp 70-79): PyErr_WriteUnraisable prints and clears the TypeError,
         and -1 is returned without an exception, which the interpreter reports as SystemError *)
      else if mismatch e then (s, CErr SystemError)
      else match nth_error data (Z.to_nat i) with
           | Some old => ((Coda (upd data (Z.to_nat i) e) (addref (addref rc e 1) old (-1)), ext), CUnit)
           | None => (s, CErr IndexError)
           end
    | CFill e =>                                                                      (* lines 304-325 *)
      if mismatch e then (s, CErr TypeError)
      else let '(data', rc') := fold_left (fun '(d, rc) old => (d ++ [e], addref (addref rc e 1) old (-1))) data ([], rc) in
           ((Coda data' rc', ext), CUnit)
    | CLen => (s, CInt (len data))                                                    (* lines 327-329 *)
    | CDrop x => if 0 <? ext x then ((Coda data (addref rc (Some x) (-1)), addref ext (Some x) (-1)), CUnit)
                 else (s, CUnit)                                                      (* the client has no reference to drop *)
    end.
  Fixpoint coda_run (ops : list coda_op) (s : coda * (A -> Z)) : (coda * (A -> Z)) * list coda_out :=
    match ops with
    | [] => (s, [])
    | o :: ops' => let '(s1, r) := coda_step s o in let '(s2, rs) := coda_run ops' s1 in (s2, r :: rs)
    end.
End Oda.
Arguments coda : clear implicits. Arguments coda_op : clear implicits. Arguments coda_out : clear implicits.
Arguments Coda {A}. Arguments ca_data {A}. Arguments ca_rc {A}.
Arguments CGet {A}. Arguments CSet {A}. Arguments CFill {A}. Arguments CLen {A}. Arguments CDrop {A}.
Arguments CVal {A}. Arguments CUnit {A}. Arguments CInt {A}. Arguments CErr {A}.

(** ** DynamicOneDimensionalArray (DynamicOneDimensionalArray.hpp) *)
(** [c_buf] the buffer, [c_asize] the inner array's _size, [c_size] the member "size"; the double _load_factor is the rational
    [c_ln/c_ld] and the float quotient [_num/_size] is compared exactly (FloatModel2.v has the single-precision quotient, FloatProps2.v
    says when the two tests agree). *)
Record cdoda (A : Type) := Cdoda { c_buf : list (option A); c_asize : Z; c_size : Z; c_num : Z; c_last : Z; c_ln : Z; c_ld : Z }.
Arguments Cdoda {A}. Arguments c_buf {A}. Arguments c_asize {A}. Arguments c_size {A}. Arguments c_num {A}. Arguments c_last {A}. Arguments c_ln {A}. Arguments c_ld {A}.

Section Doda.
  Context {A : Type}.
  (** [_data[i]] and [_data[i] = v] on a raw pointer *)
  Definition rawget (b : list (option A)) (i : Z) : res (option A) :=
    if (i <? 0) || (len b <=? i) then undefined else match nth_error b (Z.to_nat i) with Some v => Ret v | None => undefined end.
  Definition rawset (b : list (option A)) (i : Z) (v : option A) : res (list (option A)) :=
    if (i <? 0) || (len b <=? i) then undefined else Ret (upd b (Z.to_nat i) v).

  (** __new__ (lines 26-60), the inner array being [data] *)
  Definition cpp_doda_new (data : list (option A)) (ln ld : Z) : cdoda A :=
    let size := len data in
    let num := match data with [] => 0 | None :: _ => 0 | Some _ :: _ => size end in
    Cdoda data size size num (num - 1) ln ld.

  (** _modify without force (lines 83-128); with [_size = 0] the quotient is inf or NaN and the test is false *)
  Definition cpp_modify (d : cdoda A) : res (cdoda A) :=
    if (0 <? c_asize d) && (c_num d * c_ld d <? c_ln d * c_asize d) then
      ' (arr, j) <- forM (zrange 0 (c_last d + 1))
        (fun i '(arr, j) =>
           x <- rawget (c_buf d) i ;;
           match x with
           | None => Ret (arr, j)
           | Some _ => y <- rawget (c_buf d) i ;; arr' <- rawset arr j y ;; Ret (arr', j + 1)
           end)
        (repeat None (Z.to_nat (2 * c_num d + 1)), 0) ;;
      Ret (Cdoda arr (2 * c_num d + 1) (2 * c_num d + 1) (c_num d) (j - 1) (c_ln d) (c_ld d))
    else Ret d.
  (** _modify(True) (lines 83-103): the search for the last element starts at _size - 1 and does not stop at 0 *)
  Fixpoint cpp_last_some (rev_data : list (option A)) (i : Z) : res Z :=
    match rev_data with
    | [] => undefined
    | None :: r => cpp_last_some r (i - 1)
    | Some _ :: _ => Ret i
    end.
  Definition cpp_modify_force (d : cdoda A) : res (cdoda A) :=
    i <- cpp_last_some (rev (c_buf d)) (-1) ;;
    cpp_modify (Cdoda (c_buf d) (c_asize d) (c_size d) (c_num d) (i + c_asize d) (c_ln d) (c_ld d)).

  (** append (lines 130-159): nothing looks at the type of the element *)
  Definition cpp_append (d : cdoda A) (el : option A) : res (cdoda A) :=
    d1 <- (if c_last d + 1 =? c_asize d then
             let new_size := 2 * c_asize d + 1 in
             (* the cells up to _last_pos_filled are copied, the others set to None *)
             arr <- forM (zrange 0 (c_last d + 1)) (fun i arr => x <- rawget (c_buf d) i ;; rawset arr i x) (repeat None (Z.to_nat new_size)) ;;
             arr' <- rawset arr (c_last d + 1) el ;;
             Ret (Cdoda arr' new_size new_size (c_num d) (c_last d) (c_ln d) (c_ld d))
           else
             arr' <- rawset (c_buf d) (c_last d + 1) el ;;
             Ret (Cdoda arr' (c_asize d) (c_size d) (c_num d) (c_last d) (c_ln d) (c_ld d))) ;;
    cpp_modify (Cdoda (c_buf d1) (c_asize d1) (c_size d1) (c_num d1 + 1) (c_last d1 + 1) (c_ln d1) (c_ld d1)).

  (** delete (lines 161-186) *)
  Definition cpp_delete (d : cdoda A) (idx : Z) : res (cdoda A) :=
    if (idx <=? c_last d) && (0 <=? idx) then
      x <- rawget (c_buf d) idx ;;
      match x with
      | None => Ret d
      | Some _ =>
        b <- rawset (c_buf d) idx None ;;
        cpp_modify (Cdoda b (c_asize d) (c_size d) (c_num d - 1) (if c_last d =? idx then c_last d - 1 else c_last d) (c_ln d) (c_ld d))
      end
    else Ret d.

  (** __getitem__ (lines 62-65) through OneDimensionalArray___getitem__: the bound is the inner _size *)
  Definition cpp_get (d : cdoda A) (i : Z) : res (option A) :=
    if (i <? 0) || (c_asize d <=? i) then Raise IndexError else rawget (c_buf d) i.

  Inductive cdoda_op := CDAppend (x : option A) | CDDelete (i : Z).
  Definition cdoda_step (d : cdoda A) (o : cdoda_op) : res (cdoda A) :=
    match o with CDAppend x => cpp_append d x | CDDelete i => cpp_delete d i end.
  Definition cdoda_run (ops : list cdoda_op) (d : cdoda A) : res (cdoda A) := forM ops (fun o d => cdoda_step d o) d.

  (** ** ArrayStack (ArrayStack.hpp) *)
  (** __new__ (lines 20-57): an empty array of size 0, or the items *)
  Definition cs_new (items : list A) : cdoda A := cpp_doda_new (map Some items) 1 4.
  (** is_empty (lines 59-67) *)
  Definition cs_is_empty (d : cdoda A) : bool := c_last d =? -1.
  (** push (69-87), pop (89-103), peek (105-109), len (111-113). The dtype set by push on an empty stack is never looked at again.
      pop returns the element read even if the deletion does nothing. *)
  Definition cs_step (d : cdoda A) (o : stack_op (option A)) : cdoda A * qout A :=
    match o with
    | SPush x => out_of d (d' <- cpp_append d x ;; Ret (d', OUnit))
    | SPop => if cs_is_empty d then (d, OErr IndexError)
              else out_of d (top <- cpp_get d (c_last d) ;; d' <- cpp_delete d (c_last d) ;; Ret (d', OVal top))
    | SPeek => out_of d (top <- cpp_get d (c_last d) ;; Ret (d, OVal top))
    | SLen => (d, OInt (c_num d))
    | SEmpty => (d, OBool (cs_is_empty d))
    end.
End Doda.
Arguments cdoda_op : clear implicits.
