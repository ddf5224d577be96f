(** Model of printing in the C++ backend: the list of cells that the text shows, None for a cell printed as ''. *)
From Verif Require Import Base ArraysModel CppArrayModel.

Section Arrays.
  Context {A : Type}.
  (** __str__(array, size, last_pos_filled) (utils/_backend/cpp/utils.hpp 51-69): the default -1 of last_pos_filled means "all size cells". A cell is read from the
      buffer without a check. The text of an item (PyObject_Str), the quotes and the commas are left out. *)
  Definition c_str (array : list (option A)) (size last_pos_filled : Z) : res (list (option A)) :=
    let fin := if last_pos_filled =? -1 then size else last_pos_filled + 1 in
    forM (zrange 0 fin) (fun i out => x <- rawget array i ;; Ret (out ++ [x])) [].
  (** OneDimensionalArray.__str__ (OneDimensionalArray.hpp 331-333) *)
  Definition coda_printed (s : coda A) : res (list (option A)) := c_str (ca_data s) (len (ca_data s)) (-1).
  (** DynamicOneDimensionalArray.__str__ (DynamicOneDimensionalArray.hpp 80-83); ArrayStack.__str__ (ArrayStack.hpp 115-117) is the same call *)
  Definition cdoda_printed (d : cdoda A) : res (list (option A)) := c_str (c_buf d) (c_asize d) (c_last d).
End Arrays.
