(** Properties C128-C133: what printing shows. The fuel handed to a printing loop is one more than the number of nodes ever made. *)
From Coq Require Import Sorting.Sorted.
From Verif Require Import Base SortSpec ArraysModel ArraysProofs LinkedModel LinkedProofs LinkedCircular LinkedDouble StackQueueModel StackQueueSpec StackQueueProofs
  HeapModel HeapProofs SkipModel SkipSpec SkipProofs SkipProofs2 SkipProofs3 SkipProofs5 SkipProps PrintModel PrintSpec PrintProofs PrintProofs2 PrintProofs3 PrintProofs5.

(** C128. The linked lists with two ends, the linked stack (bottom first) and the linked queue (front first) print exactly their contents, in order. *)
Theorem C128_singly_linked_list_print : forall (K : Type) (ops : list (lop K)) ks rs, Forall no_before_op ops -> spec_ops ops [] = Some (ks, rs) ->
  exists st, cls_run SLL ops (ll_new K) = (st, rs) /\ ll_printed (S (length (l_heap st))) st = Ret ks.
Proof. intros; apply sll_print; assumption. Qed.
Print Assumptions C128_singly_linked_list_print.
Theorem C128_doubly_linked_list_print : forall (K : Type) (ops : list (lop K)) ks rs, spec_ops ops [] = Some (ks, rs) ->
  exists st, cls_run DLL ops (ll_new K) = (st, rs) /\ ll_printed (S (length (l_heap st))) st = Ret ks.
Proof. intros; apply dll_print; assumption. Qed.
Print Assumptions C128_doubly_linked_list_print.
Theorem C128_linked_stack_print : forall (A : Type) (items : list A) (ops : list (stack_op A)),
  let st := fst (run_hist ls_step ops (ls_new items)) in
  ls_printed (S (length (l_heap st))) st = Ret (fst (run_hist (stack_spec (OVal None)) ops items)).
Proof. intros; apply stack_print. Qed.
Print Assumptions C128_linked_stack_print.
Theorem C128_linked_queue_print : forall (A : Type) (de : bool) (items : list A) (ops : list (queue_op A)),
  let st := fst (run_hist (lq_step de) ops (lq_new items)) in
  ll_printed (S (length (l_heap st))) st = Ret (fst (run_hist (deque_spec de) ops items)).
Proof. intros; apply queue_print. Qed.
Print Assumptions C128_linked_queue_print.
Definition print_ops : list (lop Z) := [LAppend 1; LInsertAt (-1) 2; LAppendLeft 0; LInsertAt 7 5; LInsertAfter 1 9; LExtract (-2); LPopRight; LAppend 4].
Example C128_case : exists rs, spec_ops print_ops [] = Some ([0; 2; 4], rs) /\ (let st := fst (cls_run SLL print_ops (ll_new Z)) in ll_printed 9 st = Ret [0; 2; 4]) /\ Forall no_before_op print_ops.
Proof. eexists. split; [vm_compute; reflexivity|]. split; [vm_compute; reflexivity|]. repeat constructor. Qed.
Example C128_stack_case : (let st := fst (run_hist ls_step [SPush 3; SPop; SPush 4; SPeek; SPush 5] (ls_new [1; 2])) in ls_printed 9 st) = Ret [1; 2; 4; 5] /\
  fst (run_hist (stack_spec (OVal None)) [SPush 3; SPop; SPush 4; SPeek; SPush 5] [1; 2]) = [1; 2; 4; 5] /\
  (let st := fst (run_hist (lq_step true) [QAppendLeft 0; QPop; QAppend 7] (lq_new [1;2])) in ll_printed 9 st) = Ret [0; 1; 7].
Proof. repeat apply conj; vm_compute; reflexivity. Qed.

(** C129 is false of the code: after insert_at(-len) the new head is not on the ring, and printing never ends, in both classes. *)
Theorem C129_circular_print_refuted : forall c, c = SCL \/ c = DCL -> exists st, cls_run c [LAppend 1; LAppend 2; LInsertAt (-2) 0] (ll_new Z) = (st, [LOk; LOk; LOk]) /\
  spec_ops [LAppend 1; LAppend 2; LInsertAt (-2) 0] [] = Some ([0; 1; 2], [LOk; LOk; LOk]) /\ forall fuel, ll_printed fuel st = OutOfFuel.
Proof.
  intros c Hc.
  assert (G : forall (st : ll Z) x y z, l_head st = Some 2%nat -> nth_error (l_heap st) 0 = Some x -> nth_error (l_heap st) 1 = Some y -> nth_error (l_heap st) 2 = Some z ->
    c_next x = Some 1%nat -> c_next y = Some 0%nat -> c_next z = Some 0%nat -> forall fuel, ll_printed fuel st = OutOfFuel).
  { intros st x y z Eh E0 E1 E2 N0 N1 N2 fuel. unfold ll_printed. rewrite Eh.
    assert (L : forall f acc a, a = 0%nat \/ a = 1%nat -> while_loop f (fun '(elements, cur) => match cur with None => Ret (Break elements) | Some a => c <- deref (l_heap st) cur ;; let elements := elements ++ [c_key c] in if opt_eqb (c_next c) (Some 2%nat) then Ret (Break elements) else Ret (Next (elements, c_next c)) end) (acc, Some a) = OutOfFuel).
    { induction f as [|f IH]; intros acc a [->| ->]; [reflexivity|reflexivity| |]; cbn [while_loop deref]; rewrite ?E0, ?E1; cbn [bind]; rewrite ?N0, ?N1; cbn [opt_eqb Nat.eqb]; apply IH; auto. }
    destruct fuel as [|f]; [reflexivity|]. cbn [while_loop deref]. rewrite E2. cbn [bind]. rewrite N2. cbn [opt_eqb Nat.eqb]. apply L. auto. }
  destruct Hc as [-> | ->]; eexists; (split; [vm_compute; reflexivity|]); (split; [vm_compute; reflexivity|]); eapply G; reflexivity.
Qed.
Print Assumptions C129_circular_print_refuted.
(** as long as no index is -len, and in the doubly linked case the first of several elements is not extracted, the ring is printed once round *)
Theorem C129_circular_print_partial : forall (K : Type) (ops : list (lop K)) ks rs, hist_ok circ_ok ops [] -> spec_ops ops [] = Some (ks, rs) ->
  exists st, cls_run SCL ops (ll_new K) = (st, rs) /\ ll_printed (S (length (l_heap st))) st = Ret ks.
Proof. intros; apply scl_print; assumption. Qed.
Print Assumptions C129_circular_print_partial.
Theorem C129_doubly_circular_print_partial : forall (K : Type) (ops : list (lop K)) ks rs, hist_ok dcirc_ok ops [] -> spec_ops ops [] = Some (ks, rs) ->
  exists st, cls_run DCL ops (ll_new K) = (st, rs) /\ ll_printed (S (length (l_heap st))) st = Ret ks.
Proof. intros; apply dcl_print; assumption. Qed.
Print Assumptions C129_doubly_circular_print_partial.
Example C129_case : hist_ok circ_ok [LAppend 1; LAppend 3; LInsertAt (-1) 2; LAppendLeft 0; LInsertAt 7 5; LInsertAfter 1 9; LExtract (-2); LPopRight; LPopLeft] ([] : list Z) /\
  ll_printed 9 (fst (cls_run SCL [LAppend 1; LAppend 3; LInsertAt (-1) 2; LAppendLeft 0; LInsertAt 7 5; LInsertAfter 1 9; LExtract (-2); LPopRight; LPopLeft] (ll_new Z))) = Ret [1; 9] /\
  hist_ok dcirc_ok [LAppend 1; LPopLeft; LInsertAt (-1) 1; LAppend 3; LInsertAt (-1) 2; LAppendLeft 0; LInsertAt 7 5; LInsertAfter (-1) 9; LInsertBefore (-5) 8; LExtract (-2); LPopRight] ([] : list Z).
Proof. split; [vm_compute; repeat split; try (left; reflexivity); try (right; reflexivity); try (left; discriminate); try (right; discriminate)|]. split; [vm_compute; reflexivity|].
  vm_compute. repeat split; try discriminate; try (left; reflexivity); try (right; reflexivity); try (right; discriminate); left; split; try reflexivity; discriminate. Qed.

(** C130. After any history, printing a DynamicOneDimensionalArray shows exactly the cells up to the last filled one, what a read of the position returns in each;
    nothing filled is left out, and iterating in reverse gives the same cells backwards. *)
Theorem C130_dynamic_array_print : forall (A : Type) ln ld (d0 : doda A) ops, doda_start ln ld d0 ->
  exists d shown, doda_run ops d0 = Ret d /\ doda_printed d = Ret shown /\ doda_reversed d = Ret (rev shown) /\
    content shown = content (d_data d) /\ (forall i v, nth_error shown i = Some v -> doda_get d (Z.of_nat i) = Ret v) /\
    (forall i v, doda_get d i = Ret (Some v) -> nth_error shown (Z.to_nat i) = Some (Some v)).
Proof. intros; eapply dynamic_print; eassumption. Qed.
Print Assumptions C130_dynamic_array_print.
Example C130_case : doda_start 1 4 (doda_new_list [1; 2; 3; 4] 1 4) /\
  (d <- doda_run [DAppend 5; DDelete 1; DAppend 6; DDelete 5] (doda_new_list [1; 2; 3; 4] 1 4) ;; p <- doda_printed d ;; r <- doda_reversed d ;; Ret (p, r))
    = Ret ([Some 1; None; Some 3; Some 4; Some 5], [Some 5; Some 4; Some 3; None; Some 1]).
Proof. split; [|vm_compute; reflexivity]. split; [lia|]. split; [lia|]. right. eexists. reflexivity. Qed.

(** C131 is false of the code: an ArrayStack prints the spare cells of its array; printing an empty ArrayQueue raises IndexError, and so does printing a queue of
    one item after the array behind it was shrunk. *)
Theorem C131_array_stack_queue_print_refuted :
  as_printed (fst (run_hist as_step [SPush 1; SPush 2; SPush 3; SPush 4] (as_new []))) <> map Some (fst (run_hist (stack_spec (OErr IndexError)) [SPush 1; SPush 2; SPush 3; SPush 4] ([] : list Z))) /\
  aq_printed (aq_new ([] : list Z) false) = Raise IndexError /\
  (let ops := [QAppend 1; QAppend 2; QAppend 3; QAppend 4; QAppend 5; QAppend 6; QAppend 7; QPopLeft; QPopLeft; QPopLeft; QPopLeft; QPopLeft; QPopLeft] in
   aq_printed (fst (run_hist aq_step ops (aq_new [] false))) = Raise IndexError /\ fst (run_hist (deque_spec false) ops []) = [7]).
Proof. repeat apply conj; vm_compute; try reflexivity. discriminate. Qed.
Print Assumptions C131_array_stack_queue_print_refuted.
(** an ArrayStack prints its items from the bottom, followed by nothing but the word None *)
Theorem C131_array_stack_print_partial : forall (A : Type) (items : list A) (ops : list (stack_op A)),
  exists spare, as_printed (fst (run_hist as_step ops (as_new items))) = map Some (fst (run_hist (stack_spec (OErr IndexError)) ops items)) ++ repeat (@None A) spare.
Proof. intros; apply array_stack_print. Qed.
Print Assumptions C131_array_stack_print_partial.
(** an ArrayQueue that is not empty prints its items from the front, in the histories of [aq_print_ok] *)
Theorem C131_array_queue_print_partial : forall (A : Type) (items : list A) (de : bool) (ops : list (queue_op A)), aq_print_ok de ops items 0 false ->
  snd (run_hist aq_step ops (aq_new items de)) = snd (run_hist (deque_spec de) ops items) /\
  (fst (run_hist (deque_spec de) ops items) <> [] -> aq_printed (fst (run_hist aq_step ops (aq_new items de))) = Ret (map Some (fst (run_hist (deque_spec de) ops items)))).
Proof. intros; apply array_queue_print; assumption. Qed.
Print Assumptions C131_array_queue_print_partial.
Example C131_case : let ops := [QAppend 1; QAppend 2; QAppend 3; QPopLeft; QAppend 4; QPopLeft; QAppend 5; QAppend 6] in
  aq_print_ok false ops [] 0 false /\ aq_printed (fst (run_hist aq_step ops (aq_new [] false))) = Ret [Some 3; Some 4; Some 5; Some 6] /\
  as_printed (fst (run_hist as_step [SPush 1; SPush 2; SPop; SPush 3] (as_new [9]))) = [Some 9; Some 1; Some 3].
Proof. split; [|split; vm_compute; reflexivity]. simpl. repeat split; unfold len; simpl; lia. Qed.

(** C132. Printing a d-ary heap after any history shows every element once with the numbers of its children: a number is listed by exactly the one element it
    belongs to, and no child comes before its parent. *)
Theorem C132_heap_print : forall (K D : Type) (comp : K -> K -> bool) (le : K -> K -> Prop) (d : Z) (elements : list (K * D)) (ops : list (heap_op K D)), decides comp le -> 1 <= d ->
  exists h0 h, heap_build comp d elements = Ret h0 /\ heap_run comp d ops h0 = Ret h /\
    let shown := heap_printed (heap_nodes d h) in
    map fst shown = h /\
    (forall i kd cs, nth_error shown i = Some (kd, cs) -> Sorted Z.lt cs /\ (forall j, In j cs -> exists kd' cs', 0 <= j /\ nth_error shown (Z.to_nat j) = Some (kd', cs') /\ le (fst kd) (fst kd'))) /\
    (forall j, (0 < j < length shown)%nat -> exists! i, exists kd cs, nth_error shown i = Some (kd, cs) /\ In (Z.of_nat j) cs) /\
    (forall i kd cs, nth_error shown i = Some (kd, cs) -> len cs <= d /\ ~ In 0 cs).
Proof.
  intros K D comp le d elements ops DC Hd. pose proof (build_hok comp le DC d Hd elements) as W. apply wp_ex in W. destruct W as (h0 & E0 & P0 & O0).
  pose proof (run_hok comp le DC d Hd ops h0 O0) as W. apply wp_ex in W. destruct W as (h & E & O). exists h0, h. split; [exact E0|]. split; [exact E|]. intros shown.
  assert (EF : map fst shown = h) by (apply heap_print_fst; assumption). assert (EL : length shown = length h) by (rewrite <- EF, map_length; reflexivity). split; [exact EF|].
  assert (CH : forall i kd cs, nth_error shown i = Some (kd, cs) -> _) by (intros i kd cs; apply (heap_print_children d Hd h i kd cs)).
  split; [|split].
  - intros i kd cs Ei. destruct (CH _ _ _ Ei) as (E1 & SS & C). split; [exact SS|]. intros j Hj. destruct (proj1 (C j) Hj) as (B & _).
    destruct (nth_error shown (Z.to_nat j)) as [[kd' cs']|] eqn:Ej; [|apply nth_error_None in Ej; unfold len in B; lia]. exists kd', cs'. split; [lia|]. split; [reflexivity|].
    destruct (CH _ _ _ Ej) as (Ej' & _). apply (heap_print_order le d Hd h i kd cs (Z.to_nat j) kd' O Ei); [|exact Ej']. rewrite Z2Nat.id by lia. exact Hj.
  - intros j Hj. set (i := Z.to_nat ((Z.of_nat j - 1) / d)). assert (B0 : 0 <= (Z.of_nat j - 1) / d) by (apply Z.div_pos; lia). assert (B1 : (Z.of_nat j - 1) / d <= Z.of_nat j - 1) by (apply Z.div_le_upper_bound; nia).
    destruct (nth_error shown i) as [[kd cs]|] eqn:Ei; [|apply nth_error_None in Ei; unfold i in Ei; lia]. exists i. split.
    + exists kd, cs. split; [exact Ei|]. apply (CH _ _ _ Ei). unfold len. split; [lia|]. unfold i. rewrite Z2Nat.id; [reflexivity|exact B0].
    + intros i' (kd' & cs' & Ei' & I). destruct (CH _ _ _ Ei') as (_ & _ & C). apply C in I as (_ & I). unfold i. rewrite I. apply Nat2Z.id.
  - intros i kd cs Ei. destruct (CH _ _ _ Ei) as (_ & _ & C). split; [|intros I; apply C in I; lia].
    unfold shown in Ei. rewrite (heap_print_nth d Hd) in Ei. destruct (nth_error h i); [|discriminate]. injection Ei as _ <-. unfold len at 1. rewrite zrange_length. lia.
Qed.
Print Assumptions C132_heap_print.
Example C132_case : exists h, heap_build Z.leb 3 [(5, 0); (2, 1); (8, 2); (2, 3); (9, 4); (1, 5)] = Ret h /\ 
  heap_printed (heap_nodes 3 h) = [((1, 5), [1; 2; 3]); ((2, 1), [4; 5]); ((8, 2), []); ((2, 3), []); ((9, 4), []); ((5, 0), [])].
Proof. eexists. split; vm_compute; reflexivity. Qed.

(** C133 is false of the code: of two pairs with equal keys one is not printed. *)
Theorem C133_skip_list_print_refuted : exists st outs, skip_run skip_new [SInsert 5 (Some 50) (fun _ => false); SInsert 5 (Some 51) (fun _ => false)] = Ret (st, outs) /\
  fst (bag_run [] [SInsert 5 (Some 50) (fun _ => false); SInsert 5 (Some 51) (fun _ => false)]) = [(5, Some 51); (5, Some 50)] /\
  skip_printed st = Ret [[None; Some (5, Some 50)]].
Proof. eexists. eexists. split; [vm_compute; reflexivity|]. split; vm_compute; reflexivity. Qed.
Print Assumptions C133_skip_list_print_refuted.
(** printing never fails, whatever the history: there is one row for each level, the top one first, and one column for each pair; a column shows something only if
    its key does not come again, and then the oldest pair of the level with that key *)
Theorem C133_skip_list_print_every_history : forall (D : Type) (ops : list (sop D)) st outs, skip_run skip_new ops = Ret (st, outs) ->
  let levels := map level_pairs (skip_levels st) in
  skip_printed st = Ret (map (fun lv => skip_row lv (map fst (last levels []))) levels).
Proof.
  intros D ops st outs E levels. rewrite (skip_print ops st outs E). f_equal. unfold levels. rewrite map_map. apply map_ext. intros lv. do 2 f_equal.
  generalize (skip_levels st). intros l. induction l as [|a [|b l] IH]; [reflexivity|reflexivity|]. cbn [map last] in *. exact IH.
Qed.
Print Assumptions C133_skip_list_print_every_history.
Lemma sub_in {A} (l m : list A) : sublist l m -> forall x, In x l -> In x m.
Proof. induction 1 as [|y l m S IH|y l m S IH]; intros x I; [exact I|right; auto|]. destruct I as [->|I]; [left; reflexivity|right; auto]. Qed.
Lemma sub_nodup {A} (l m : list A) : sublist l m -> NoDup m -> NoDup l.
Proof. induction 1 as [|y l m S IH|y l m S IH]; intros N; [exact N|inversion N; auto|]. inversion N as [|? ? N1 N2]; subst. constructor; [|auto]. intros I. apply N1. eapply sub_in; eauto. Qed.
Lemma nodup_down {A} : forall (ls : list (list A)), (forall i up low, nth_error ls i = Some up -> nth_error ls (S i) = Some low -> sublist up low) -> NoDup (last ls []) -> Forall (fun l => NoDup l) ls.
Proof.
  induction ls as [|a ls IH]; intros H N; [constructor|]. destruct ls as [|b ls]; [constructor; [exact N|constructor]|]. assert (F : Forall (fun l => NoDup l) (b :: ls)) by (apply IH; [intros i up low X Y; apply (H (S i) up low X Y)|exact N]).
  constructor; [|exact F]. inversion F; subst. eapply sub_nodup; [apply (H 0%nat a b); reflexivity|assumption].
Qed.
(** with all keys different the lowest row is the list of all pairs in the order of their keys, and every row shows the pairs of its level in the columns of their keys *)
Theorem C133_skip_list_print_partial : forall (D : Type) (ops : list (sop D)) st outs, skip_run skip_new ops = Ret (st, outs) -> NoDup (map fst (fst (bag_run [] ops))) ->
  exists sorted shown, Permutation sorted (fst (bag_run [] ops)) /\ StronglySorted Z.lt (map fst sorted) /\ skip_printed st = Ret shown /\
    last shown [] = map Some sorted /\
    shown = map (fun lv => map (fun k => find (fun e => fst e =? k) (level_pairs lv)) (map fst sorted)) (skip_levels st).
Proof.
  intros D ops st outs E ND. destruct (C14_levels D ops st outs E) as (_ & FL & SL & rest & sorted & dh & dt & EL & P & _). cbn zeta in *.
  set (low := (NInf, dh) :: map (fun e => (Fin (fst e), snd e)) sorted ++ [(PInf, dt)]) in *.
  assert (PL : level_pairs low = sorted). { unfold low, level_pairs. cbn [flat_map fst app]. rewrite flat_map_app. cbn [flat_map fst app]. rewrite app_nil_r. clear. induction sorted as [|[k v] l IH]; [reflexivity|]. cbn [map flat_map fst snd app]. rewrite IH. reflexivity. }
  assert (LL : last (skip_levels st) [] = low) by (rewrite EL; apply last_last).
  assert (NS : NoDup (map fst sorted)) by (eapply Permutation_NoDup; [apply Permutation_map, Permutation_sym, P|exact ND]).
  assert (KP : forall lv : list (xkey * option D), Forall (fun lv0 => exists ks, map fst lv0 = NInf :: map Fin ks ++ [PInf] /\ ascending ks) [lv] -> NoDup (map fst lv) -> NoDup (map fst (level_pairs lv))).
  { intros lv F N. destruct (Forall_inv F) as (ks & Ek & _). assert (X : map fst (level_pairs lv) = flat_map (fun x => match x with Fin k => [k] | _ => [] end) (map fst lv)).
    { clear. induction lv as [|[x v] lv IH]; [reflexivity|]. unfold level_pairs in *. cbn [flat_map fst snd map]. rewrite map_app, IH. destruct x; reflexivity. }
    rewrite X, Ek. rewrite Ek in N. cbn [flat_map app]. rewrite flat_map_app. cbn [flat_map app]. rewrite app_nil_r. assert (Y : flat_map (fun x => match x with Fin k => [k] | _ => [] end) (map Fin ks) = ks) by (clear; induction ks as [|k ks IH]; [reflexivity|cbn; rewrite IH; reflexivity]). rewrite Y.
    apply NoDup_cons_iff in N as (_ & N1). apply NoDup_remove_1 in N1. rewrite app_nil_r in N1. apply (NoDup_map_inv Fin). exact N1. }
  assert (NL : NoDup (map fst low)).
  { unfold low. cbn [map fst]. rewrite map_app, map_map. cbn [map fst]. assert (M : map (fun x : Z * option D => Fin (fst x)) sorted = map Fin (map fst sorted)) by (rewrite map_map; reflexivity). rewrite M. constructor.
    - rewrite in_app_iff, in_map_iff. intros [(k & X & _)|[X|[]]]; discriminate.
    - eapply Permutation_NoDup; [apply Permutation_cons_append|]. constructor; [rewrite in_map_iff; intros (k & X & _); discriminate|]. apply FinFun.Injective_map_NoDup; [intros a b X; injection X; auto|exact NS]. }
  assert (ALL : Forall (fun lv => NoDup (map fst lv)) (skip_levels st)).
  { assert (F := nodup_down (map (map fst) (skip_levels st))). rewrite Forall_map in F. apply F.
    - intros i up lo X Y. rewrite nth_error_map in X, Y. destruct (nth_error (skip_levels st) i) as [u|] eqn:Eu; [|discriminate]. destruct (nth_error (skip_levels st) (S i)) as [w|] eqn:Ew; [|discriminate]. injection X as <-. injection Y as <-. eapply SL; eauto.
    - rewrite EL, map_app. cbn [map]. rewrite last_last. exact NL. }
  exists sorted. eexists. split; [exact P|]. split; [|split; [apply (skip_print ops st outs E)|split]].
  - rewrite EL in FL. apply Forall_app in FL as (_ & FL). destruct (Forall_inv FL) as (ks & Ek & A). unfold low in Ek. cbn [map fst] in Ek. injection Ek as Ek. rewrite map_app, map_map in Ek. cbn [map fst] in Ek. apply app_inj_tail in Ek as (Ek & _).
    assert (X : map fst sorted = ks). { apply (f_equal (flat_map (fun x => match x with Fin k => [k] | _ => [] end))) in Ek. revert Ek. assert (Y : forall l, flat_map (fun x => match x with Fin k => [k] | _ => [] end) (map Fin l) = l) by (clear; induction l as [|k l IH]; [reflexivity|cbn; rewrite IH; reflexivity]). rewrite Y. rewrite <- (map_map fst Fin), Y. auto. }
    rewrite X in *. clear - A NS. induction ks as [|k ks IH]; [constructor|]. destruct A as (A1 & A2). inversion NS as [|? ? N1 N2]; subst. constructor; [apply IH; assumption|]. rewrite Forall_forall in *. intros y Hy. specialize (A1 y Hy). assert (y <> k) by (intros ->; contradiction). lia.
  - rewrite LL, PL, EL, map_app. cbn [map]. rewrite last_last, PL, row_distinct by exact NS. clear - NS. 
    assert (G : forall m, incl m sorted -> map (fun k => find (fun e => fst e =? k) sorted) (map fst m) = map Some m).
    { induction m as [|x m IH]; intros I; [reflexivity|]. cbn [map]. rewrite IH by (intros y Hy; apply I; right; exact Hy). f_equal. assert (Ix := I x (or_introl eq_refl)). clear - NS Ix. induction sorted as [|y l IH]; [destruct Ix|]. cbn [map] in NS. inversion NS as [|? ? N1 N2]; subst. cbn [find]. destruct (Z.eqb_spec (fst y) (fst x)) as [Ek|Nk].
      - destruct Ix as [->|Ix]; [reflexivity|]. exfalso. apply N1. rewrite Ek. apply in_map. exact Ix.
      - destruct Ix as [->|Ix]; [contradiction|]. apply IH; assumption. }
    apply G. apply incl_refl.
  - rewrite LL, PL. apply map_ext_in. intros lv Hl. rewrite row_distinct; [reflexivity|exact NS|]. rewrite Forall_forall in ALL, FL. apply KP; [constructor; [apply FL; exact Hl|constructor]|apply ALL; exact Hl].
Qed.
Print Assumptions C133_skip_list_print_partial.
Example C133_case : exists st outs, skip_run skip_new [SInsert 5 (Some 50) (fun i => (i <? 1)%nat); SInsert 2 (Some 20) (fun i => (i <? 2)%nat); SInsert 7 (Some 70) (fun _ => false); SInsert 9 None (fun _ => false); SExtract 7] = Ret (st, outs) /\
  NoDup (map fst (fst (bag_run [] [SInsert 5 (Some 50) (fun i => (i <? 1)%nat); SInsert 2 (Some 20) (fun i => (i <? 2)%nat); SInsert 7 (Some 70) (fun _ => false); SInsert 9 None (fun _ => false); SExtract 7]))) /\
  skip_printed st = Ret [[Some (2, None); None; None]; [Some (2, None); Some (5, None); None]; [Some (2, Some 20); Some (5, Some 50); Some (9, None)]].
Proof. eexists. eexists. split; [vm_compute; reflexivity|]. split; [|vm_compute; reflexivity]. vm_compute. repeat constructor; cbn; intuition discriminate. Qed.
