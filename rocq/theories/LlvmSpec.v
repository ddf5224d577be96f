(** Vocabulary for the LLVM backend theorems. *)
From Verif Require Import Base CppSpec LlvmModel.
Open Scope Z_scope.

(** What happens in a process from the moment when the functions [c0] were compiled: the sorts called since (latest first;
    any arrays, any element types, any arguments, returning or not) and the functions compiled by now. *)
Inductive since (c0 : cache) : list sort_name -> cache -> Prop :=
| since_start : since c0 [] c0
| since_call V (lt : V -> V -> bool) infer fits fuel s c a start end_ custom_comp d (ss : list sort_name) :
    since c0 ss c -> since c0 (s :: ss) (snd (llvm_sort lt infer fits fuel s c a start end_ custom_comp d)).
(** a whole process: nothing is compiled at the start *)
Definition process : list sort_name -> cache -> Prop := since [].

(** a call with dtype argument [d] on the array [a] works on buffers of the machine type [dt], which can hold every element *)
Definition machine_type {V} (infer : V -> dtype) (fits : dtype -> V -> bool) (a : list (option V)) (d : option dtype) (dt : dtype) : Prop :=
  dt <> OtherDtype /\ (d = Some dt \/ d = None /\ forall v, In (Some v) a -> infer v = dt) /\ forall v, In (Some v) a -> fits dt v = true.
(** the range start..end of the array holds a value *)
Definition has_value {V} (a : list (option V)) (start end_ : option Z) : Prop :=
  exists i, range_start start <= i <= range_end a end_ /\ i < len a /\ zn None a i <> None.
