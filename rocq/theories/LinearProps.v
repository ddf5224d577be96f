(** Properties C01-C13 (arrays, stacks, queues, linked lists). Statements only; proofs are in
    ArraysProofs.v, LinkedProofs.v, LinkedCircular.v, StackQueueProofs.v. *)
From Verif Require Import Base ArraysModel ArraysProofs LinkedModel LinkedProofs LinkedCircular LinkedDouble
  StackQueueModel StackQueueSpec StackQueueProofs.

(** C01. For every coercion [conv], every array, every history of writes and fills and every index. *)
Theorem C01_array_reads_last_write : forall (A B : Type) (conv : A -> res B) (a : list (option B)) (ops : list (oda_op A)) (i : Z),
  len (oda_run conv ops a) = len a /\
  (0 <= i < len a -> oda_get (oda_run conv ops a) i = Ret (fold_left (cell_after conv (len a) i) ops (zn None a i))) /\
  (i < 0 \/ len a <= i -> oda_get (oda_run conv ops a) i = Raise IndexError).
Proof.
  intros A B conv a ops i. split; [apply oda_run_len|]. split; [apply oda_history|apply oda_oob].
Qed.
Print Assumptions C01_array_reads_last_write.
Example C01_case : oda_get (oda_run (fun x => Ret (x * 2)) [OSet 1 (Some 5); OFill 7; OSet (-1) (Some 3); OSet 9 (Some 0); OSet 1 None]
  (oda_new_size 3 (Some 0))) 2 = Ret (Some 6) /\ oda_get (oda_run (fun x => Ret (x * 2)) [OFill 7; OSet 1 None] (oda_new_size 3 (Some 0))) 1 = Ret None.
Proof. split; vm_compute; reflexivity. Qed.

(** C02. For every shape, history of in-shape writes and fills, and in-shape tuple. *)
Theorem C02_mda_cells_independent : forall (A : Type) (conv : A -> res A) (dims : list Z) (ops : list (mda_op A)) (t : list Z),
  dims <> [] -> pos_dims dims -> in_shape dims t -> Forall (mda_op_ok dims) ops ->
  exists m0, mda_new dims = Ret m0 /\ mda_shape m0 = dims /\
    mda_shape (mda_run conv ops m0) = dims /\
    mda_get (mda_run conv ops m0) t = Ret (fold_left (mcell_after conv t) ops None).
Proof. intros; apply mda_history; assumption. Qed.
Print Assumptions C02_mda_cells_independent.
Example C02_case : pos_dims [2;3;4] /\ in_shape [2;3;4] [1;2;0] /\
  Forall (mda_op_ok [2;3;4]) [MSet [1;2;0] (Some 5); MFill 9; MSet [0;2;3] (Some 7)].
Proof. unfold pos_dims, in_shape. repeat constructor; simpl; lia. Qed.

(** C03 is false of the code: [0,5,0] is accepted by a 2x3x4 array and aliases [1,2,0]. *)
Theorem C03_mda_out_of_range_refuted :
  exists m0 m1, mda_new (A := Z) [2;3;4] = Ret m0 /\ ~ in_shape [2;3;4] [0;5;0] /\
    mda_set m0 [0;5;0] (Some 7) = Ret m1 /\ mda_get m1 [1;2;0] = Ret (Some 7).
Proof.
  eexists. eexists. split; [vm_compute; reflexivity|]. split.
  - intros H; unfold in_shape in H. inversion H; subst; clear H. inversion H5; subst; lia.
  - split; [vm_compute; reflexivity|vm_compute; reflexivity].
Qed.
Print Assumptions C03_mda_out_of_range_refuted.
(** What does hold: a wrong number of indices, a last index past its dimension, or a first index past its
    dimension (the others non-negative) is rejected. Missing: middle coordinates and negative ones. *)
Theorem C03_mda_rejects_partial : forall (A : Type) (conv : A -> res A) (dims : list Z) (ops : list (mda_op A)),
  dims <> [] -> pos_dims dims ->
  exists m0, mda_new dims = Ret m0 /\
    (forall t, length t <> length dims -> mda_get (mda_run conv ops m0) t = Raise IndexError) /\
    (forall pre d t i, dims = pre ++ [d] -> length t = length pre -> d <= i -> mda_get (mda_run conv ops m0) (t ++ [i]) = Raise IndexError) /\
    (forall d ds i t, dims = d :: ds -> d <= i -> Forall (fun x => 0 <= x) t -> mda_get (mda_run conv ops m0) (i :: t) = Raise IndexError).
Proof. intros; apply mda_rejects; assumption. Qed.
Print Assumptions C03_mda_rejects_partial.

(** C04. Every history never raises, and in every reachable state an append adds at the end of the visible sequence
    and a delete of an occupied index removes exactly that element, any other delete changes nothing. *)
Theorem C04_dynamic_array_sequence : forall (A : Type) (ln ld : Z) (d0 : doda A) (ops : list (doda_op A)), doda_start ln ld d0 ->
  exists d, doda_run ops d0 = Ret d /\ d_num d = len (content (d_data d)) /\ len (d_data d) = d_size d /\
    (forall x, exists d', doda_append d x = Ret d' /\ content (d_data d') = content (d_data d) ++ [x]) /\
    (forall i, match doda_get d i with
               | Ret (Some v) => exists d' l2,
                   content (d_data d) = content (firstn (Z.to_nat i) (d_data d)) ++ v :: l2 /\
                   doda_delete d i = Ret d' /\ content (d_data d') = content (firstn (Z.to_nat i) (d_data d)) ++ l2
               | _ => doda_delete d i = Ret d
               end).
Proof. intros; eapply doda_history; eassumption. Qed.
Print Assumptions C04_dynamic_array_sequence.
Example C04_case : doda_start 1 4 (doda_new_size 0 1 4 : doda Z) /\
  exists d, doda_run [DAppend 1; DAppend 2; DAppend 3; DAppend 4; DDelete 1; DDelete 1; DDelete 0; DDelete 3; DAppend 5] (doda_new_size 0 1 4) = Ret d
    /\ content (d_data d) = [3; 5] /\ d_last d = 1.
Proof.
  split; [repeat split; try lia; left; exists 0; split; [lia|reflexivity]|].
  eexists; split; [vm_compute; reflexivity|]. split; reflexivity.
Qed.

(** C05. After a mutating call that took effect, load_factor * capacity <= number of elements - or the array has just become
    empty and has capacity at most 1. *)
Theorem C05_dynamic_array_dense : forall (A : Type) (ln ld : Z) (d0 : doda A) (ops : list (doda_op A)) (o : doda_op A),
  doda_start ln ld d0 -> 3 * ln <= ld ->
  exists d d', doda_run ops d0 = Ret d /\ doda_step d o = Ret d' /\ d_num d' <= d_size d' /\
    (d' <> d -> ln * d_size d' <= d_num d' * ld \/ (d_num d' = 0 /\ d_size d' <= 1)).
Proof. intros; apply doda_dense; assumption. Qed.
Print Assumptions C05_dynamic_array_dense.
Example C05_case : exists d d', doda_run [DAppend 1; DAppend 2; DAppend 3; DAppend 4; DDelete 0; DDelete 1] (doda_new_size 0 1 4) = Ret d /\
  doda_step d (DDelete 2) = Ret d' /\ d' <> d /\ d_size d = 7 /\ d_size d' = 3 /\ d_num d' = 1.
Proof. eexists; eexists; split; [vm_compute; reflexivity|]. split; [vm_compute; reflexivity|]. split; [discriminate|]. repeat split. Qed.

(** C06, C07. Every history of push/pop/peek/len/is_empty gives the same answers as the abstract stack. *)
Theorem C06_array_stack_lifo : forall (A : Type) (items : list A) (ops : list (stack_op A)),
  snd (run_hist as_step ops (as_new items)) = snd (run_hist (stack_spec (OErr IndexError)) ops items).
Proof. intros; apply array_stack_lifo. Qed.
Print Assumptions C06_array_stack_lifo.
Theorem C07_linked_stack_lifo : forall (A : Type) (items : list A) (ops : list (stack_op A)),
  snd (run_hist ls_step ops (ls_new items)) = snd (run_hist (stack_spec (OVal None)) ops items).
Proof. intros; apply ll_stack_lifo. Qed.
Print Assumptions C07_linked_stack_lifo.
Example C06_case : snd (run_hist as_step [SPush 3; SPeek; SPop; SPop; SLen; SPop; SPop; SPeek; SEmpty] (as_new [1;2])) =
  [OUnit; OVal (Some 3); OVal (Some 3); OVal (Some 2); OInt 1; OVal (Some 1); OErr IndexError; OErr IndexError; OBool true].
Proof. vm_compute. reflexivity. Qed.

(** C08 is false of the code: the 7th value is lost to a stale [_front]. *)
Theorem C08_array_queue_fifo_refuted :
  snd (run_hist aq_step ([QAppend 1; QAppend 2; QAppend 3; QAppend 4; QAppend 5; QAppend 6; QAppend 7]
      ++ [QPopLeft; QPopLeft; QPopLeft; QPopLeft; QPopLeft; QAppend 8; QPopLeft]) (aq_new [] false))
  <> snd (run_hist (deque_spec false) ([QAppend 1; QAppend 2; QAppend 3; QAppend 4; QAppend 5; QAppend 6; QAppend 7]
      ++ [QPopLeft; QPopLeft; QPopLeft; QPopLeft; QPopLeft; QAppend 8; QPopLeft]) []).
Proof. vm_compute. discriminate. Qed.
Print Assumptions C08_array_queue_fifo_refuted.
(** C08/C10 restricted: histories in which an append never meets more than [len] removals since the queue was last empty,
    with appendleft only before the first removal and no pop from the right ([aq_hist_ok]). *)
Theorem C08_array_queue_fifo_partial : forall (A : Type) (items : list A) (de : bool) (ops : list (queue_op A)),
  aq_hist_ok de ops items 0 false ->
  snd (run_hist aq_step ops (aq_new items de)) = snd (run_hist (deque_spec de) ops items).
Proof. intros; apply array_queue_ok; assumption. Qed.
Print Assumptions C08_array_queue_fifo_partial.
Example C08_case : aq_hist_ok false [QAppend 1; QAppend 2; QAppend 3; QPopLeft; QAppend 4; QLen; QPopLeft; QPopLeft; QPopLeft; QPopLeft; QAppend 8; QPopLeft] [] 0 false.
Proof. simpl. repeat split; unfold len; simpl; lia. Qed.

(** C09. Both modes. *)
Theorem C09_linked_queue_deque : forall (A : Type) (de : bool) (items : list A) (ops : list (queue_op A)),
  snd (run_hist (lq_step de) ops (lq_new items)) = snd (run_hist (deque_spec de) ops items).
Proof. intros; apply ll_queue_deque. Qed.
Print Assumptions C09_linked_queue_deque.
Example C09_case : snd (run_hist (lq_step true) [QAppendLeft 0; QPop; QPopLeft; QLen; QPopLeft; QPopLeft] (lq_new [1;2])) =
  [OUnit; OVal (Some 2); OVal (Some 0); OInt 1; OVal (Some 1); OErr IndexError].
Proof. vm_compute. reflexivity. Qed.

(** C10 is false of the code. *)
Theorem C10_array_deque_refuted :
  snd (run_hist aq_step [QAppend 1; QAppend 2; QPopLeft; QAppendLeft 9; QPopLeft] (aq_new [] true))
  <> snd (run_hist (deque_spec true) [QAppend 1; QAppend 2; QPopLeft; QAppendLeft 9; QPopLeft] []).
Proof. vm_compute. discriminate. Qed.
Print Assumptions C10_array_deque_refuted.
Example C10_case : aq_hist_ok true [QAppendLeft 1; QAppend 2; QAppendLeft 0; QPopLeft; QAppend 4; QPopLeft] [] 0 false.
Proof. simpl. repeat split; unfold len; simpl; lia. Qed.

(** C11. [spec_ops] is the abstract list machine ([None] exactly when some index is below -len). *)
Theorem C11_singly_linked_list : forall (K : Type) (ops : list (lop K)) ks rs,
  Forall no_before_op ops -> spec_ops ops [] = Some (ks, rs) ->
  exists st, cls_run SLL ops (ll_new K) = (st, rs) /\ keys_from c_next st (l_head st) = ks /\
    l_size st = len ks /\ key_of st (l_tail st) = last_error ks.
Proof. intros; apply sll_history; assumption. Qed.
Print Assumptions C11_singly_linked_list.
Example C11_case : spec_ops [LAppend 1; LInsertAt (-1) 2; LAppendLeft 0; LInsertAt 7 5; LGet (-1); LInsertAfter 1 9; LExtract (-2); LPopRight; LPopLeft; LPopLeft; LPopLeft] []
  = Some ([], [LOk; LOk; LOk; LErr IndexError; LKey 1; LOk; LKey 9; LKey 1; LKey 0; LKey 2; LErr ValueError]).
Proof. vm_compute. reflexivity. Qed.

(** C12. *)
Theorem C12_doubly_linked_list : forall (K : Type) (ops : list (lop K)) ks rs, spec_ops ops [] = Some (ks, rs) ->
  exists st, cls_run DLL ops (ll_new K) = (st, rs) /\ keys_from c_next st (l_head st) = ks /\
    keys_from c_prev st (l_tail st) = rev ks /\ l_size st = len ks.
Proof. intros; apply dll_history; assumption. Qed.
Print Assumptions C12_doubly_linked_list.
Example C12_case : spec_ops [LAppend 1; LInsertBefore 0 2; LInsertAfter (-1) 3; LInsertAt (-1) 4; LInsertBefore (-2) 7; LExtract 1] []
  = Some ([2; 7; 4; 3], [LOk; LOk; LOk; LOk; LOk; LKey 1]).
Proof. vm_compute. reflexivity. Qed.

(** C13 is false of the code at index -len, and DoublyCircularLinkedList.extract(0) breaks the back link. *)
Theorem C13_circular_refuted :
  (exists st, cls_run SCL [LAppend 1; LAppend 2; LInsertAt (-2) 0] (ll_new Z) = (st, [LOk; LOk; LOk]) /\
     match l_tail st with Some t => nx (l_heap st) t <> Some (l_head st) | None => False end) /\
  (exists s1 s2 s3 a hd, dcl_insert_at 9 (ll_new Z) 0 1 = (s1, Ret tt) /\ dcl_insert_at 9 s1 1 2 = (s2, Ret tt) /\
     dcl_extract 9 s2 0 = (s3, Ret a) /\ l_head s3 = Some hd /\ l_size s3 = 1 /\
     option_map c_prev (nth_error (l_heap s3) hd) = Some None).
Proof.
  split.
  - eexists; split; [vm_compute; reflexivity|]. vm_compute. discriminate.
  - do 5 eexists. split; [vm_compute; reflexivity|]. split; [vm_compute; reflexivity|]. split; [vm_compute; reflexivity|].
    split; [reflexivity|]. split; reflexivity.
Qed.
Print Assumptions C13_circular_refuted.
(** C13 for SinglyCircularLinkedList with every index above -len ([circ_ok]). *)
Theorem C13_circular_partial : forall (K : Type) (ops : list (lop K)) ks rs, hist_ok circ_ok ops [] -> spec_ops ops [] = Some (ks, rs) ->
  exists st, cls_run SCL ops (ll_new K) = (st, rs) /\ circular_shape st ks.
Proof. intros; apply scl_history; assumption. Qed.
Print Assumptions C13_circular_partial.
Example C13_case : hist_ok circ_ok [LAppend 1; LAppend 3; LInsertAt (-1) 2; LAppendLeft 0; LInsertAt 7 5; LInsertAfter 1 9; LExtract (-2); LPopRight; LPopLeft] ([] : list Z).
Proof. vm_compute. repeat split; try (left; reflexivity); try (right; reflexivity); try (left; discriminate); try (right; discriminate). Qed.
(** C13 for DoublyCircularLinkedList, in both directions, as long as no index is -len and the first of several elements is not extracted ([dcirc_ok]). *)
Theorem C13_doubly_circular_partial : forall (K : Type) (ops : list (lop K)) ks rs, hist_ok dcirc_ok ops [] -> spec_ops ops [] = Some (ks, rs) ->
  exists st, cls_run DCL ops (ll_new K) = (st, rs) /\ circular_both st ks.
Proof. intros; apply dcl_history; assumption. Qed.
Print Assumptions C13_doubly_circular_partial.
Example C13_double_case : hist_ok dcirc_ok [LAppend 1; LPopLeft; LInsertAt (-1) 1; LAppend 3; LInsertAt (-1) 2; LAppendLeft 0; LInsertAt 7 5; LInsertAfter (-1) 9; LInsertBefore (-5) 8; LExtract (-2); LPopRight] ([] : list Z) /\
  spec_ops [LAppend 1; LPopLeft; LInsertAt (-1) 1; LAppend 3; LInsertAt (-1) 2; LAppendLeft 0; LInsertAt 7 5; LInsertAfter (-1) 9; LInsertBefore (-5) 8; LExtract (-2); LPopRight] ([] : list Z)
   = Some ([8; 0; 1; 2], [LOk; LKey 1; LOk; LOk; LOk; LOk; LErr IndexError; LOk; LOk; LKey 3; LKey 9]).
Proof. split; [|vm_compute; reflexivity]. vm_compute. repeat split; try discriminate; try (left; reflexivity); try (right; reflexivity); try (right; discriminate); left; split; try reflexivity; discriminate. Qed.
