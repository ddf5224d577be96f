(** Model of the C++ load-factor test: DynamicOneDimensionalArray.hpp 104 divides in single precision (binary32) and compares with a double. *)
From Coq Require Import Floats.SpecFloat.
From Verif Require Import Base ArraysModel CppArrayModel FloatModel.

(** (float) n for a long n (exact below 2^24) *)
Definition c_float (n : Z) : spec_float := binary_normalize 24 128 n 0 false.
(** (float) a / (float) b *)
Definition c_fdiv (a b : Z) : spec_float := SFdiv 24 128 (c_float a) (c_float b).
(** the conversion of a float to double before a comparison with a double (exact) *)
Definition c_widen (x : spec_float) : spec_float :=
  match x with S754_finite s m e => binary_normalize 53 1024 (if s then Zneg m else Zpos m) e s | _ => x end.
(** ((float) self->_num)/((float) _size) < self->_load_factor (DynamicOneDimensionalArray.hpp 104); 0/0 is NaN and compares false *)
Definition c_load_test (num size : Z) (load_factor : spec_float) : bool := SFltb (c_widen (c_fdiv num size)) load_factor.

(** DynamicOneDimensionalArray of the C++ backend with that test; otherwise as cpp_modify, cpp_append and cpp_delete of CppArrayModel.v *)
Section CdodaFloat.
  Context {A : Type}.
  (** _modify without force (DynamicOneDimensionalArray.hpp 83-128) *)
  Definition cppf_modify (d : cdoda A) : res (cdoda A) :=
    if c_load_test (c_num d) (c_asize d) (py_div (c_ln d) (c_ld d)) then
      ' (arr, j) <- forM (zrange 0 (c_last d + 1))
        (fun i '(arr, j) =>
           x <- rawget (c_buf d) i ;;
           match x with
           | None => Ret (arr, j)
           | Some _ => y <- rawget (c_buf d) i ;; arr' <- rawset arr j y ;; Ret (arr', j + 1)
           end)
        (repeat None (Z.to_nat (2 * c_num d + 1)), 0) ;;
      Ret (Cdoda arr (2 * c_num d + 1) (2 * c_num d + 1) (c_num d) (j - 1) (c_ln d) (c_ld d))
    else Ret d.
  (** append (DynamicOneDimensionalArray.hpp 130-159) *)
  Definition cppf_append (d : cdoda A) (el : option A) : res (cdoda A) :=
    d1 <- (if c_last d + 1 =? c_asize d then
             let new_size := 2 * c_asize d + 1 in
             arr <- forM (zrange 0 (c_last d + 1)) (fun i arr => x <- rawget (c_buf d) i ;; rawset arr i x) (repeat None (Z.to_nat new_size)) ;;
             arr' <- rawset arr (c_last d + 1) el ;;
             Ret (Cdoda arr' new_size new_size (c_num d) (c_last d) (c_ln d) (c_ld d))
           else
             arr' <- rawset (c_buf d) (c_last d + 1) el ;;
             Ret (Cdoda arr' (c_asize d) (c_size d) (c_num d) (c_last d) (c_ln d) (c_ld d))) ;;
    cppf_modify (Cdoda (c_buf d1) (c_asize d1) (c_size d1) (c_num d1 + 1) (c_last d1 + 1) (c_ln d1) (c_ld d1)).
  (** delete (DynamicOneDimensionalArray.hpp 161-186) *)
  Definition cppf_delete (d : cdoda A) (idx : Z) : res (cdoda A) :=
    if (idx <=? c_last d) && (0 <=? idx) then
      x <- rawget (c_buf d) idx ;;
      match x with
      | None => Ret d
      | Some _ =>
        b <- rawset (c_buf d) idx None ;;
        cppf_modify (Cdoda b (c_asize d) (c_size d) (c_num d - 1) (if c_last d =? idx then c_last d - 1 else c_last d) (c_ln d) (c_ld d))
      end
    else Ret d.
  (** a sequence of calls *)
  Definition cppf_run (ops : list (cdoda_op A)) (d : cdoda A) : res (cdoda A) :=
    forM ops (fun o d => match o with CDAppend x => cppf_append d x | CDDelete i => cppf_delete d i end) d.
End CdodaFloat.
