(** Properties C113-C115: the C++ arrays and ArrayStack. *)
From Verif Require Import Base ArraysModel ArraysProofs StackQueueModel StackQueueSpec CppArrayModel CppArraySpec CppArrayProofs.

(** C113. An array built from a list of instances of its dtype (or of a given size, full of None): for every history of reads, writes, fills and
    of references let go by the caller, the answers are those of [n] independent cells, only None and instances of the dtype are ever stored,
    and every cell owns a reference to its object (so no stored object is freed). *)
Theorem C113_cpp_array : forall (A : Type) (same : A -> A -> bool) (isinst : A -> bool), (forall x y, same x y = true <-> x = y) ->
  forall (l : list (option A)) (rc ext : A -> Z) (ops : list (coda_op A)),
  Forall (fun e => exists x, e = Some x /\ isinst x = true) l -> (forall x, 0 <= ext x <= rc x) ->
  exists st st' ext', cpp_new_list same isinst l rc = Ret st /\
    coda_run same isinst ops (st, ext) = (st', ext', snd (cells_run isinst (len l) ops (fun i => match nth_error l (Z.to_nat i) with Some e => e | None => None end))) /\
    Forall (storable isinst) (ca_data st') /\
    (forall x, 0 <= ext' x /\ occurrences same x (ca_data st') + ext' x <= ca_rc st' x).
Proof.
  intros A same isinst SE l rc ext ops F H. destruct (new_list_ret same isinst l rc [] F) as (st & E). exists st. unfold cpp_new_list. rewrite E.
  destruct (new_list_loop same isinst l [] rc st E) as (D & _ & R). cbn [app] in D.
  set (f := fun i => match nth_error l (Z.to_nat i) with Some e => e | None => None end).
  assert (C : cok same isinst (len l) f (st, ext)).
  { constructor; cbn [fst snd]; rewrite ?D; auto.
    - intros i Hi. unfold f. destruct (nth_error l (Z.to_nat i)) eqn:EN; [reflexivity|]. apply nth_error_None in EN. unfold len in Hi. lia.
    - eapply Forall_impl; [|exact F]. intros e (x & -> & E1). exact E1.
    - intros x. apply H.
    - intros x. rewrite R. specialize (H x). lia. }
  destruct (crun same isinst SE ops _ _ _ C) as ([st' ext'] & E' & C'). exists st', ext'. split; [reflexivity|]. split; [exact E'|]. destruct C' as [L N S X R']. cbn [fst snd] in *. split; [exact S|]. intros x. split; [apply X|apply R'].
Qed.
Print Assumptions C113_cpp_array.
Theorem C113_cpp_array_of_size : forall (A : Type) (same : A -> A -> bool) (isinst : A -> bool), (forall x y, same x y = true <-> x = y) ->
  forall (n : Z) (rc ext : A -> Z) (ops : list (coda_op A)), 0 <= n -> (forall x, 0 <= ext x <= rc x) ->
  exists st st' ext', cpp_new_size same isinst n None rc = Ret st /\
    coda_run same isinst ops (st, ext) = (st', ext', snd (cells_run isinst n ops (fun _ => None))) /\
    Forall (storable isinst) (ca_data st') /\
    (forall x, 0 <= ext' x /\ occurrences same x (ca_data st') + ext' x <= ca_rc st' x).
Proof.
  intros A same isinst SE n rc ext ops Hn H. unfold cpp_new_size. destruct (Z.ltb_spec n 0); [lia|]. cbn [mismatch addref]. eexists. 
  assert (C : cok same isinst n (fun _ => None) (Coda (repeat None (Z.to_nat n)) rc, ext)).
  { constructor; cbn [fst snd ca_data ca_rc].
    - unfold len. rewrite repeat_length. lia.
    - intros i Hi. apply nth_error_repeat. lia.
    - apply Forall_forall. intros e He. apply repeat_spec in He. subst e. exact I.
    - intros x. apply H.
    - intros x. rewrite occ_repeat. cbn [one]. specialize (H x). lia. }
  destruct (crun same isinst SE ops _ _ _ C) as ([st' ext'] & E' & C'). exists st', ext'. split; [reflexivity|]. split; [exact E'|]. destruct C' as [L N S X R']. cbn [fst snd] in *. split; [exact S|]. intros x. split; [apply X|apply R'].
Qed.
Print Assumptions C113_cpp_array_of_size.
(** a list that holds something else than instances of the dtype is refused *)
Theorem C113_cpp_array_rejects : forall (A : Type) (same : A -> A -> bool) (isinst : A -> bool) (l1 l2 : list (option A)) (e : option A) (rc : A -> Z),
  Forall (fun e => exists x, e = Some x /\ isinst x = true) l1 -> match e with Some x => isinst x = false | None => True end ->
  cpp_new_list same isinst (l1 ++ e :: l2) rc = Raise TypeError.
Proof.
  intros A same isinst l1 l2 e rc F He. unfold cpp_new_list. generalize (@nil (option A)). revert rc. induction F as [|a l1 (x & -> & E) F IH]; intros rc d; cbn [cpp_new_list_loop app].
  - destruct e as [x|]; [rewrite He|]; reflexivity.
  - rewrite E. apply IH.
Qed.
Print Assumptions C113_cpp_array_rejects.
(** with [init=x] all the cells share one reference: two calls later a cell points to an object whose reference count is 0 *)
Theorem C113_cpp_array_init_refuted : exists st st' ext' outs, cpp_new_size Z.eqb (fun _ => true) 2 (Some 1) (fun _ => 1) = Ret st /\
  coda_run Z.eqb (fun _ => true) [CSet 0 (Some 2); CDrop 1] (st, fun _ => 1) = (st', ext', outs) /\
  nth_error (ca_data st') 1 = Some (Some 1) /\ ca_rc st' 1 = 0.
Proof. do 4 eexists. split; [reflexivity|]. split; [reflexivity|]. split; reflexivity. Qed.
Print Assumptions C113_cpp_array_init_refuted.
Example C113_case : snd (coda_run Z.eqb (fun x => x <? 100) [CGet 1; CSet 1 (Some 7); CGet 1; CSet 5 None; CGet (-1); CSet 0 (Some 200); CFill (Some 200); CFill None; CGet 1; CLen]
    (Coda [Some 3; Some 4] (fun _ => 2), fun _ => 1)) = [CVal (Some 4); CUnit; CVal (Some 7); CErr IndexError; CErr IndexError; CErr SystemError; CErr TypeError; CUnit; CVal None; CInt 2] /\
  Forall (fun e => exists x, e = Some x /\ (x <? 100) = true) [Some 3; Some 4].
Proof. split; [vm_compute; reflexivity|]. repeat constructor; eexists; split; reflexivity. Qed.

(** C114. Every history of append and delete of the C++ DynamicOneDimensionalArray stays inside its buffer and leaves the same cells, size, number of
    elements and last position as the Python class; [size] is always the length of the buffer. *)
Theorem C114_cpp_dynamic_array : forall (A : Type) (ln ld : Z) (data : list (option A)) (d0 : doda A) (ops : list (doda_op A)),
  0 < ln -> 2 * ln <= ld -> (exists l, data = map Some l /\ d0 = doda_new_list l ln ld) \/ (exists n, 0 <= n /\ data = repeat None (Z.to_nat n) /\ d0 = doda_new_size n ln ld) ->
  exists d c, doda_run ops d0 = Ret d /\
    cdoda_run (map (fun o => match o with DAppend x => CDAppend (Some x) | DDelete i => CDDelete i end) ops) (cpp_doda_new data ln ld) = Ret c /\
    c_buf c = d_data d /\ c_num c = d_num d /\ c_last c = d_last d /\ c_size c = d_size d /\ c_size c = len (c_buf c) /\ c_asize c = len (c_buf c) /\
    (forall i, cpp_get c i = doda_get d i) /\
    (forall x, exists c', cpp_append c (Some x) = Ret c' /\ content (c_buf c') = content (c_buf c) ++ [x]).
Proof.
  intros A ln ld data d0 ops H1 H2 H. assert (X : doda_inv d0 /\ cpp_doda_new data ln ld = emb d0).
  { destruct H as [(l & -> & ->)|(n & Hn & -> & ->)]; (split; [eapply doda_start_inv; split; [exact H1|split; [exact H2|]]|]); [right; eauto|apply new_eq_list|left; eauto|apply new_eq_size; exact Hn]. }
  destruct X as [I E]. rewrite E. destruct (run_eq ops d0 I) as (d & Ed & Id & Ec). exists d, (emb d). split; [exact Ed|]. split; [exact Ec|].
  cbn [emb c_buf c_num c_last c_size c_asize]. rewrite (di_size _ Id). repeat (split; [reflexivity|]). split; [intros i; apply get_eq; exact Id|].
  intros x. destruct (step_eq d (DAppend x) Id) as (d' & Es & I' & E'). cbn [doda_step cdoda_step cpp_op] in *. exists (emb d'). split; [exact E'|]. cbn [emb c_buf].
  destruct (doda_append_spec d x Id) as (d2 & E2 & _ & C2 & _). congruence.
Qed.
Print Assumptions C114_cpp_dynamic_array.
(** _modify(True) on an array with at least one element does what the Python method does *)
Theorem C114_cpp_modify_force : forall (A : Type) (d d' : doda A), len (d_data d) = d_size d -> doda_modify_force d = Ret d' ->
  cpp_modify_force (Cdoda (d_data d) (d_size d) (d_size d) (d_num d) (d_last d) (d_ln d) (d_ld d)) = Ret (Cdoda (d_data d') (d_size d') (d_size d') (d_num d') (d_last d') (d_ln d') (d_ld d')).
Proof. intros. apply (force_eq d d'); assumption. Qed.
Print Assumptions C114_cpp_modify_force.
(** ... on an array without elements it reads before the buffer, where the Python method raises IndexError *)
Theorem C114_cpp_modify_force_refuted : forall (A : Type) (n : Z), 0 <= n ->
  @cpp_modify_force A (cpp_doda_new (repeat None (Z.to_nat n)) 1 4) = undefined /\ @doda_modify_force A (doda_new_size n 1 4) = Raise IndexError.
Proof.
  intros A n Hn. unfold cpp_modify_force, doda_modify_force, cpp_doda_new, doda_new_size. cbn [c_buf d_data]. assert (R : rev (repeat (@None A) (Z.to_nat n)) = repeat None (Z.to_nat n)).
  { induction (Z.to_nat n) as [|k IH]; [reflexivity|]. cbn [repeat rev]. rewrite IH. clear. induction k as [|k IH]; [reflexivity|]. cbn [repeat app]. f_equal. exact IH. }
  rewrite R. assert (X : forall k i, @cpp_last_some A (repeat None k) i = undefined /\ @doda_last_some A (repeat None k) i = Raise IndexError) by (induction k as [|k IH]; intros i; [split; reflexivity|apply IH]).
  destruct (X (Z.to_nat n) (-1)) as [-> ->]. split; reflexivity.
Qed.
Print Assumptions C114_cpp_modify_force_refuted.
(** append looks at no type: an object that is not of the dtype is stored *)
Theorem C114_cpp_append_dtype_refuted : forall (A : Type) (isinst : A -> bool) (x : A), isinst x = false ->
  exists c, cpp_append (cpp_doda_new [] 1 4) (Some x) = Ret c /\ cpp_get c 0 = Ret (Some x) /\ ~ Forall (storable isinst) (c_buf c).
Proof. intros A isinst x H. eexists. split; [reflexivity|]. split; [reflexivity|]. intros F. inversion F as [|? ? S _]. cbn in S. congruence. Qed.
Print Assumptions C114_cpp_append_dtype_refuted.
Example C114_case : exists c, cdoda_run [CDAppend (Some 1); CDAppend (Some 2); CDAppend (Some 3); CDAppend (Some 4); CDDelete 0; CDDelete 1; CDDelete 2] (cpp_doda_new [] 1 4) = Ret c /\
  c_buf c = [Some 4; None; None] /\ c_size c = 3 /\ c_num c = 1.
Proof. eexists. split; [vm_compute; reflexivity|]. repeat split. Qed.

(** C115. The C++ ArrayStack is a stack, whatever (non-None) items it starts with and whatever is done to it. *)
Theorem C115_cpp_array_stack : forall (A : Type) (items : list A) (ops : list (stack_op A)),
  snd (run_hist cs_step (map (fun o => match o with SPush x => SPush (Some x) | SPop => SPop | SPeek => SPeek | SLen => SLen | SEmpty => SEmpty end) ops) (cs_new items))
  = snd (run_hist (stack_spec (OErr IndexError)) ops items).
Proof. intros A items ops. destruct (cs_new_rel items) as (d & R & ->). apply (cs_run_eq ops d items R). Qed.
Print Assumptions C115_cpp_array_stack.
(** a pushed None can never be popped: pop answers None for ever and the stack is never empty again *)
Theorem C115_cpp_stack_none_refuted : forall (A : Type) (k : nat),
  snd (run_hist cs_step (SPush None :: repeat SPop k ++ [SLen; SEmpty]) (@cs_new A [])) = OUnit :: repeat (OVal None) k ++ [OInt 1; OBool false].
Proof.
  intros A k. change (run_hist cs_step (SPush None :: repeat SPop k ++ [SLen; SEmpty]) (@cs_new A [])) with
    (let (s2, rs) := run_hist cs_step (repeat SPop k ++ [SLen; SEmpty]) (@Cdoda A [None] 1 1 1 0 1 4) in (s2, OUnit :: rs)).
  set (d := Cdoda [None] 1 1 1 0 1 4). assert (E : forall n, run_hist cs_step (repeat SPop n ++ [SLen; SEmpty]) d = (d, repeat (OVal (@None A)) n ++ [OInt 1; OBool false])).
  { induction n as [|n IH]; [reflexivity|]. cbn [repeat app run_hist]. change (cs_step d SPop) with (d, OVal (@None A)). cbv beta iota.
rewrite IH. reflexivity. }
  rewrite E. reflexivity.
Qed.
Print Assumptions C115_cpp_stack_none_refuted.
Example C115_case : snd (run_hist cs_step [SPush (Some 3); SPeek; SPop; SPop; SLen; SPop; SPop; SPeek; SEmpty] (cs_new [1;2])) =
  [OUnit; OVal (Some 3); OVal (Some 3); OVal (Some 2); OInt 1; OVal (Some 1); OErr IndexError; OErr IndexError; OBool true].
Proof. vm_compute. reflexivity. Qed.
