(** Properties C40-C42 (BinomialHeap, PriorityQueue). *)
From Verif Require Import Base ArraysProofs LinkedModel LinkedProofs SortSpec HeapModel HeapProofs BinomialModel BinomialSpec BinomialProofs PQModel PQProofs StackQueueModel.

(** C40. Whatever calls built the heap: orders strictly increase along root_list; insert and merge add exactly the given elements;
    on a non-empty heap find_minimum returns a stored element of least key and delete_minimum removes exactly that one; on an empty
    heap both raise IndexError. *)
Theorem C40_binomial_heap : forall (D : Type) (h : bheap D), bh_reachable h ->
  increasing (map fst h) /\
  (forall k d, exists h', bh_insert h k d = Ret h' /\ Permutation ((k, d) :: bh_elems h) (bh_elems h')) /\
  (forall h2, bh_reachable h2 -> exists h', bh_merge h h2 = Ret h' /\ Permutation (bh_elems h ++ bh_elems h2) (bh_elems h')) /\
  (bh_elems h = [] -> bh_is_empty h = true /\ bh_find_minimum h = Raise IndexError /\ bh_delete_minimum h = Raise IndexError) /\
  (bh_elems h <> [] -> bh_is_empty h = false /\ exists m i h', bh_find_minimum h = Ret (m, i) /\ bh_delete_minimum h = Ret h' /\
     Permutation (bh_elems h) ((b_key m, b_data m) :: bh_elems h') /\ least (b_key m, b_data m) (bh_elems h)).
Proof.
  intros D h R. pose proof (reachable_ok h R) as O. split; [apply O|]. split; [|split; [|split]].
  - intros k d. pose proof (BinomialProofs.insert_ok h k d O) as W. apply wp_ex in W. destruct W as (h' & E & _ & P). eauto.
  - intros h2 R2. pose proof (merge_ok h h2 O (reachable_ok h2 R2)) as W. apply wp_ex in W. destruct W as (h' & E & _ & P). eauto.
  - intros E. apply bh_elems_nil in E. subst h. repeat split.
  - intros E. assert (Hne : h <> []) by (intros ->; contradiction). split; [destruct h; [contradiction|reflexivity]|].
    destruct (delete_min_ok h O Hne) as (m & i & h' & A & B & _ & C & L). exists m, i, h'. auto.
Qed.
Print Assumptions C40_binomial_heap.
(** the number of trees is logarithmic in the number of elements (so find_minimum looks at O(log n) roots) *)
Theorem C40_binomial_roots_logarithmic : forall (D : Type) (h : bheap D), bh_reachable h ->
  2 ^ len h - 1 <= len (bh_elems h).
Proof.
  intros D h R. pose proof (heap_size_ge h (reachable_ok h R) 0 ltac:(lia)) as H. apply H.
  intros t Ht. destruct (reachable_ok h R) as [_ F]. rewrite Forall_forall in F. apply (F t Ht).
Qed.
Print Assumptions C40_binomial_roots_logarithmic.
Definition bh5 : res (bheap Z) := forM [5; 2; 8; 1; 9] (fun k h => bh_insert h k (10 * k)) [].
Lemma inserts_reachable l : forall h h' : bheap Z, bh_reachable h -> forM l (fun k h => bh_insert h k (10 * k)) h = Ret h' -> bh_reachable h'.
Proof.
  induction l as [|k l IH]; intros h h' R E; cbn [forM] in E; [injection E as <-; exact R|].
  destruct (bh_insert h k (10 * k)) as [h1| |] eqn:E1; cbn [bind] in E; try discriminate. eapply IH; [|exact E]. eapply br_insert; eauto.
Qed.
Example C40_case : exists h, bh5 = Ret h /\ bh_reachable h /\ map fst h = [0; 2] /\ (' (m, i) <- bh_find_minimum h ;; Ret (b_key m, i)) = Ret (1, 1%nat).
Proof.
  eexists. split; [vm_compute; reflexivity|]. split; [|split; vm_compute; reflexivity].
  apply (inserts_reachable [5; 2; 8; 1; 9] []); [constructor|vm_compute; reflexivity].
Qed.

(** C41. [bh_node h i path] is the node handed to the method. decrease_key to a smaller key replaces exactly that element's key (its data
    stays with it); to a key that is not smaller it raises ValueError; delete removes exactly that element. *)
Theorem C41_decrease_key_and_delete : forall (D : Type) (h : bheap D) (i : nat) (path : list nat) (node : bnode D),
  bh_reachable h -> bh_node h i path = Some node ->
  (forall k, k < b_key node -> exists h' rest, bh_decrease_key h i path k = Ret h' /\
      Permutation (bh_elems h) ((b_key node, b_data node) :: rest) /\ Permutation (bh_elems h') ((k, b_data node) :: rest)) /\
  (forall k, b_key node <= k -> bh_decrease_key h i path k = Raise ValueError) /\
  (exists h', bh_delete h i path = Ret h' /\ Permutation (bh_elems h) ((b_key node, b_data node) :: bh_elems h')).
Proof.
  intros D h i path node R Hn. pose proof (reachable_ok h R) as O. split; [|split].
  - intros k Hk. destruct (decrease_key_ok h i path node k O Hn Hk) as (h' & rest & E & _ & P1 & P2). eauto.
  - intros k Hk. apply (decrease_key_err h i path node k O Hn Hk).
  - destruct (delete_ok h i path node O Hn) as (h' & E & _ & P). eauto.
Qed.
Print Assumptions C41_decrease_key_and_delete.
Example C41_case : exists h node, bh5 = Ret h /\ bh_node h 1 [1%nat; 0%nat] = Some node /\ b_key node = 5 /\
  (h' <- bh_decrease_key h 1 [1%nat; 0%nat] 0 ;; ' (m, _) <- bh_find_minimum h' ;; Ret (b_key m, b_data m)) = Ret (0, 50).
Proof. do 2 eexists. split; [vm_compute; reflexivity|]. split; [vm_compute; reflexivity|]. split; vm_compute; reflexivity. Qed.

(** C42. Each implementation shows only histories a priority queue may show. [comp p q] = true puts p first; for the linked list
    and binary heap any comparator deciding a total preorder (strict or not); the binomial heap takes no comparator (least priority first). *)
Theorem C42_priority_queues : forall (P V : Type) (comp : P -> P -> bool) (le : P -> P -> Prop) (ops : list (pq_op P V)), decides comp le ->
  pq_allowed le [] ops (snd (run_hist (lpq_step comp) ops (ll_new (P * V)))) /\
  pq_allowed le [] ops (snd (run_hist (hpq_step comp) ops [])).
Proof.
  intros P V comp le ops DC. split.
  - eapply lpq_allowed; [exact DC|apply rep_new|reflexivity].
  - apply hpq_allowed; [exact DC|eapply hok_nil; exact DC|reflexivity].
Qed.
Print Assumptions C42_priority_queues.
Theorem C42_binomial_priority_queue : forall (V : Type) (ops : list (pq_op Z V)),
  pq_allowed Z.le [] ops (snd (run_hist bpq_step ops ([] : bheap V))).
Proof. intros V ops. apply bpq_allowed; [split; simpl; auto|reflexivity]. Qed.
Print Assumptions C42_binomial_priority_queue.
(** With a strict comparator the linked-list queue serves ties first-in first-out. *)
Theorem C42_linked_priority_queue_stable : forall (P V : Type) (lt : P -> P -> bool) (le : P -> P -> Prop) (ops : list (pq_op P V)),
  decides lt le -> (forall x y, lt x y = true -> ~ le y x) ->
  snd (run_hist (lpq_step lt) ops (ll_new (P * V))) = snd (run_hist (pq_stable_step lt) ops []).
Proof. intros P V lt le ops DC ST. eapply lpq_stable; [exact DC|exact ST|apply rep_new]. Qed.
Print Assumptions C42_linked_priority_queue_stable.
Example C42_case : decides Z.ltb Z.le /\ (forall x y, Z.ltb x y = true -> ~ Z.le y x) /\
  let ops := [PPush 10 2; PPush 11 1; PPush 12 1; PPeek; PPop; PPop; PEmpty; PPop; PPop; PEmpty] in
  let out := [PNone; PNone; PNone; PNode 1 11; PVal 11; PVal 12; PBool false; PVal 10; PErr IndexError; PBool true] in
  snd (run_hist (lpq_step Z.ltb) ops (ll_new (Z * Z))) = out /\ snd (run_hist (hpq_step Z.ltb) ops []) = snd (run_hist bpq_step ops ([] : bheap Z)) /\ snd (run_hist bpq_step ops ([] : bheap Z)) =
    [PNone; PNone; PNone; PNode 1 12; PVal 12; PVal 11; PBool false; PVal 10; PErr IndexError; PBool true].
Proof.
  split; [|split; [intros x y; rewrite Z.ltb_lt; lia|split; [vm_compute; reflexivity|split; vm_compute; reflexivity]]].
  split; intros x y; rewrite ?Z.ltb_lt, ?Z.ltb_ge; lia.
Qed.
