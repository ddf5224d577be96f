(** C13, C129 for DoublyCircularLinkedList when the first of several elements may be extracted. Specifications: LinkedProofs.v (spec_ops), LinkedCircular.v (circular_shape). *)
From Verif Require Import Base LinkedModel LinkedProofs LinkedCircular LinkedDouble LinkedDouble2 PrintModel PrintProofs.

(** C13. In every history without an index of -len and without an insert_before at the first node, the list answers like the list of keys,
    is circular forwards, and backwards from the tail as far as the head: all that can be missing is the head's own back link. *)
Theorem C13_doubly_circular_forward_partial : forall (K : Type) (ops : list (lop K)) ks rs,
  hist_ok (fun l o => match o with
    | LInsertAt i _ => - len l < i \/ len l = 0
    | LExtract i => - len l < i \/ len l <= 1
    | LInsertBefore i _ => i <> 0 /\ i <> - len l
    | _ => True end) ops [] -> spec_ops ops [] = Some (ks, rs) ->
  exists st, cls_run DCL ops (ll_new K) = (st, rs) /\ circular_shape st ks /\
    follow c_prev (length ks) (l_heap st) (l_tail st) = rev (follow c_next (length ks) (l_heap st) (l_head st)).
Proof. intros K ops ks rs Ho H. destruct (weak_run ops (ll_new K) [] ks rs weak_new Ho H) as (st & E & W). exists st. split; [exact E|]. exact (weak_shape st ks W). Qed.
Print Assumptions C13_doubly_circular_forward_partial.
(** C129. ... and it is printed once round. *)
Theorem C129_doubly_circular_forward_print_partial : forall (K : Type) (ops : list (lop K)) ks rs,
  hist_ok (fun l o => match o with
    | LInsertAt i _ => - len l < i \/ len l = 0
    | LExtract i => - len l < i \/ len l <= 1
    | LInsertBefore i _ => i <> 0 /\ i <> - len l
    | _ => True end) ops [] -> spec_ops ops [] = Some (ks, rs) ->
  exists st, cls_run DCL ops (ll_new K) = (st, rs) /\ ll_printed (S (length (l_heap st))) st = Ret ks.
Proof.
  intros K ops ks rs Ho H. destruct (weak_run ops (ll_new K) [] ks rs weak_new Ho H) as (st & E & W). exists st. split; [exact E|].
  destruct (weak_crep st ks W) as (ps & R). eapply cl_printed_ok; exact R.
Qed.
Print Assumptions C129_doubly_circular_forward_print_partial.
Definition C13_forward_ops : list (lop Z) := [LAppend 1; LAppend 2; LAppend 3; LPopLeft; LInsertAt 1 7; LInsertBefore 1 9; LExtract 0; LPopRight; LInsertAfter 0 4; LPopLeft; LAppendLeft 5; LExtract 0; LPopLeft; LPopRight].
Example C13_forward_case : hist_ok (fun l o => match o with
    | LInsertAt i _ => - len l < i \/ len l = 0
    | LExtract i => - len l < i \/ len l <= 1
    | LInsertBefore i _ => i <> 0 /\ i <> - len l
    | _ => True end) C13_forward_ops [] /\
  spec_ops (firstn 11 C13_forward_ops) [] = Some ([5; 4; 7], [LOk; LOk; LOk; LKey 1; LOk; LOk; LKey 2; LKey 3; LOk; LKey 9; LOk]).
Proof. split; [|vm_compute; reflexivity]. vm_compute. repeat split; try discriminate; try (left; reflexivity); try (right; reflexivity); try (right; discriminate). Qed.
(** Outside: after extract(0) an insert_before at the first node leaves the ring open (the tail still points to the old head), and printing never
    ends. *)
Theorem C13_insert_before_after_extract_refuted : exists st, cls_run DCL [LAppend 1; LAppend 2; LAppend 3; LPopLeft; LInsertBefore 0 9] (ll_new Z) = (st, [LOk; LOk; LOk; LKey 1; LOk]) /\
  spec_ops [LAppend 1; LAppend 2; LAppend 3; LPopLeft; LInsertBefore 0 9] [] = Some ([9; 2; 3], [LOk; LOk; LOk; LKey 1; LOk]) /\
  (forall ks, ~ circular_shape st ks) /\ (forall fuel, ll_printed fuel st = OutOfFuel).
Proof.
  eexists. split; [vm_compute; reflexivity|]. split; [vm_compute; reflexivity|].
  split. { intros ks (_ & _ & _ & H). cbn [l_head l_tail] in H. destruct H as (_ & _ & H). vm_compute in H. discriminate H. }
  intros fuel. unfold ll_printed. cbn [l_head l_heap].
  set (h := [ _; _; _; _ ]).
  assert (L : forall f acc a, a = 1%nat \/ a = 2%nat -> while_loop f (fun '(elements, cur) => match cur with None => Ret (Break elements) | Some a => c <- deref h cur ;; let elements := elements ++ [c_key c] in if opt_eqb (c_next c) (Some 3%nat) then Ret (Break elements) else Ret (Next (elements, c_next c)) end) (acc, Some a) = OutOfFuel).
  { induction f as [|f IH]; intros acc a [->| ->]; [reflexivity|reflexivity| |]; cbn [while_loop deref h nth_error bind c_next opt_eqb Nat.eqb]; apply IH; auto. }
  destruct fuel as [|f]; [reflexivity|]. cbn [while_loop deref h nth_error bind c_next opt_eqb Nat.eqb]. apply L. auto.
Qed.
Print Assumptions C13_insert_before_after_extract_refuted.
