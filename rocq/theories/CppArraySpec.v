(** Specification of a fixed-size typed array: [n] cells, each a function of its index. *)
From Verif Require Import Base CppArrayModel.

Section Spec.
  Context {A : Type} (isinst : A -> bool) (n : Z).
  (** a value that may be stored: None or an instance of the dtype *)
  Definition storable (e : option A) : Prop := match e with None => True | Some x => isinst x = true end.
  Definition storableb (e : option A) : bool := match e with None => true | Some x => isinst x end.
  (** a call on the cells [f]: the new cells and the answer *)
  Definition cells_step (f : Z -> option A) (o : coda_op A) : (Z -> option A) * coda_out A :=
    match o with
    | CGet i => (f, if (0 <=? i) && (i <? n) then CVal (f i) else CErr IndexError)
    | CSet i e => if (0 <=? i) && (i <? n) then
                    if storableb e then ((fun j => if j =? i then e else f j), CUnit) else (f, CErr SystemError)
                  else (f, CErr IndexError)
    | CFill e => if storableb e then ((fun _ => e), CUnit) else (f, CErr TypeError)
    | CLen => (f, CInt n)
    | CDrop _ => (f, CUnit)
    end.
  Fixpoint cells_run (ops : list (coda_op A)) (f : Z -> option A) : (Z -> option A) * list (coda_out A) :=
    match ops with
    | [] => (f, [])
    | o :: ops' => let '(f1, r) := cells_step f o in let '(f2, rs) := cells_run ops' f1 in (f2, r :: rs)
    end.
End Spec.

(** how many cells hold the object [x] *)
Definition occurrences {A} (same : A -> A -> bool) (x : A) (data : list (option A)) : Z :=
  len (filter (fun e => match e with Some y => same y x | None => false end) data).
