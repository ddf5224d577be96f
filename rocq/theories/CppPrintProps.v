(** C137: what printing an array or stack of the C++ backend shows. *)
From Verif Require Import Base ArraysModel ArraysProofs StackQueueModel StackQueueSpec StackQueueProofs CppArrayModel CppArraySpec CppArrayProofs PrintModel PrintProofs CppPrintModel CppPrintProofs.

(** C137. After any history of reads, writes and fills, printing a C++ OneDimensionalArray shows the value of each of its n cells, in order. *)
Theorem C137_cpp_array_print : forall (A : Type) (same : A -> A -> bool) (isinst : A -> bool), (forall x y, same x y = true <-> x = y) ->
  forall (l : list (option A)) (rc ext : A -> Z) (ops : list (coda_op A)),
  Forall (fun e => exists x, e = Some x /\ isinst x = true) l -> (forall x, 0 <= ext x <= rc x) ->
  exists st st' ext' outs, cpp_new_list same isinst l rc = Ret st /\ coda_run same isinst ops (st, ext) = (st', ext', outs) /\
    coda_printed st' = Ret (map (fst (cells_run isinst (len l) ops (fun i => match nth_error l (Z.to_nat i) with Some e => e | None => None end))) (zrange 0 (len l))).
Proof.
  intros A same isinst SE l rc ext ops F H. destruct (new_list_ret same isinst l rc [] F) as (st & E). exists st. unfold cpp_new_list.
  destruct (new_list_loop same isinst l [] rc st E) as (D & _ & R). cbn [app] in D.
  assert (C : cok same isinst (len l) (fun i => match nth_error l (Z.to_nat i) with Some e => e | None => None end) (st, ext)).
  { constructor; cbn [fst snd]; rewrite ?D.
    - reflexivity.
    - intros i Hi. destruct (nth_error l (Z.to_nat i)) eqn:X; [reflexivity|]. apply nth_error_None in X. unfold len in Hi. lia.
    - apply Forall_forall. intros e He. rewrite Forall_forall in F. destruct (F e He) as (x & -> & I). exact I.
    - intros x. specialize (H x). lia.
    - intros x. rewrite R. specialize (H x). lia. }
  destruct (crun same isinst SE ops _ _ _ C) as ([st' ext'] & E' & C'). exists st', ext'. eexists. split; [exact E|]. split; [exact E'|]. destruct C' as [L N _ _ _]. cbn [fst snd] in *.
  unfold coda_printed. rewrite c_str_ok by (change (-1 =? -1) with true; cbv iota; pose proof (len_nonneg _ (ca_data st')); lia). change (-1 =? -1) with true. cbv iota. f_equal.
  rewrite firstn_all2 by (unfold len; lia). apply list_ext_nth. intros k.
  destruct (Nat.ltb_spec k (length (ca_data st'))) as [Hk|Hk].
  - specialize (N (Z.of_nat k) ltac:(unfold len in *; lia)). rewrite Nat2Z.id in N. rewrite N. symmetry. unfold zrange. rewrite map_map.
    rewrite nth_error_map. rewrite (nth_error_nth' (seq 0 (Z.to_nat (len l - 0))) 0%nat) by (rewrite seq_length; unfold len in *; lia). rewrite seq_nth by (unfold len in *; lia). reflexivity.
  - transitivity (@None (option A)); [apply nth_error_None; lia|]. symmetry. apply nth_error_None. rewrite map_length. unfold zrange. rewrite map_length, seq_length. unfold len in *. lia.
Qed.
Print Assumptions C137_cpp_array_print.
Example C137_array_case : (let '(st, _, _) := coda_run Z.eqb (fun x => x <? 100) [CSet 1 (Some 7); CGet 1; CSet 0 None; CSet 2 (Some 200)] (Coda [Some 3; Some 4; Some 5] (fun _ => 2), fun _ => 1) in coda_printed st) = Ret [None; Some 7; Some 5] /\
  Forall (fun e => exists x, e = Some x /\ (x <? 100) = true) [Some 3; Some 4; Some 5].
Proof. split; [vm_compute; reflexivity|]. repeat constructor; eexists; split; reflexivity. Qed.

(** C137. After any history of appends and deletes that leaves an element, printing a C++ DynamicOneDimensionalArray shows what the Python class shows (C130). *)
Theorem C137_cpp_dynamic_array_print_partial : forall (A : Type) (ln ld : Z) (data : list (option A)) (d0 : doda A) (ops : list (doda_op A)),
  0 < ln -> 2 * ln <= ld -> (exists l, data = map Some l /\ d0 = doda_new_list l ln ld) \/ (exists n, 0 <= n /\ data = repeat None (Z.to_nat n) /\ d0 = doda_new_size n ln ld) ->
  exists d c, doda_run ops d0 = Ret d /\
    cdoda_run (map (fun o => match o with DAppend x => CDAppend (Some x) | DDelete i => CDDelete i end) ops) (cpp_doda_new data ln ld) = Ret c /\
    (content (d_data d) <> [] -> exists shown, doda_printed d = Ret shown /\ cdoda_printed c = Ret shown /\ content shown = content (d_data d)) /\
    (content (d_data d) = [] -> exists shown, cdoda_printed c = Ret shown /\ content shown = []).
Proof.
  intros A ln ld data d0 ops H1 H2 H. assert (X : doda_inv d0 /\ cpp_doda_new data ln ld = emb d0).
  { destruct H as [(l & -> & ->)|(n & Hn & -> & ->)]; (split; [eapply doda_start_inv; split; [exact H1|split; [exact H2|]]|]); [right; eauto|apply new_eq_list|left; eauto|apply new_eq_size; exact Hn]. }
  destruct X as [I E]. rewrite E. destruct (run_eq ops d0 I) as (d & Ed & Id & Ec). exists d, (emb d). split; [exact Ed|]. split; [exact Ec|].
  pose proof (inv_content_firstn d Id) as IC. rewrite (doda_shown d Id). split.
  - intros NE. eexists. split; [apply doda_printed_ok, Id|]. split; [|exact IC]. destruct (Z.eqb_spec (d_last d) (-1)) as [L|L]; [|reflexivity]. exfalso. apply NE. rewrite <- IC, L. reflexivity.
  - intros NE. eexists. split; [reflexivity|]. destruct (d_last d =? -1); [exact NE|]. rewrite IC. exact NE.
Qed.
Print Assumptions C137_cpp_dynamic_array_print_partial.
Example C137_dynamic_case : (c <- cdoda_run [CDAppend (Some 5); CDDelete 1; CDAppend (Some 6); CDDelete 5] (cpp_doda_new [Some 1; Some 2; Some 3; Some 4] 1 4) ;; cdoda_printed c) = Ret [Some 1; None; Some 3; Some 4; Some 5].
Proof. vm_compute. reflexivity. Qed.

(** C137. Printing a C++ ArrayStack that is not empty shows exactly its items, the bottom first, after any history of calls. *)
Theorem C137_cpp_stack_print_partial : forall (A : Type) (items : list A) (ops : list (stack_op A)),
  let held := fst (run_hist (stack_spec (OErr IndexError)) ops items) in
  let c := fst (run_hist cs_step (map (fun o => match o with SPush x => SPush (Some x) | SPop => SPop | SPeek => SPeek | SLen => SLen | SEmpty => SEmpty end) ops) (cs_new items)) in
  held <> [] -> cdoda_printed c = Ret (map Some held).
Proof.
  intros A items ops held c NE. destruct (cs_new_rel items) as (d0 & R & E). subst c. rewrite E. change (map _ ops) with (map (@stack_cpp A) ops). rewrite (cs_run_state ops d0 items R). cbn [fst].
  destruct (run_sim _ _ _ _ as_step (stack_spec (OErr IndexError)) (@as_rel A) as_step_sim ops d0 items R) as (_ & I & Ec & Hp). fold held in Ec.
  set (d := fst (run_hist as_step ops d0)) in *. rewrite (doda_shown d I). pose proof (inv_content_firstn d I) as IC. pose proof (di_last _ I) as Hl. pose proof (di_size _ I) as Hs. pose proof (di_num _ I) as Hn.
  destruct (Z.eqb_spec (d_last d) (-1)) as [L|L]; [exfalso; apply NE; rewrite <- Ec, <- IC, L; reflexivity|]. f_equal. rewrite <- Ec, <- IC. apply content_all_some. rewrite IC. unfold len in *. rewrite firstn_length. lia.
Qed.
Print Assumptions C137_cpp_stack_print_partial.
Example C137_stack_case : cdoda_printed (fst (run_hist cs_step [SPush (Some 1); SPush (Some 2); SPush (Some 3); SPop; SPush (Some 4)] (cs_new ([] : list Z)))) = Ret [Some 1; Some 2; Some 4].
Proof. vm_compute. reflexivity. Qed.

(** C137 is false of an empty array or stack: the mark -1 for "nothing filled" is also the default argument that means "print everything", so the spare
    cells are printed, one '' for each, where the Python array prints []. *)
Theorem C137_cpp_empty_print_refuted :
  (forall (A : Type) (n : Z), 0 <= n -> cdoda_printed (cpp_doda_new (repeat (@None A) (Z.to_nat n)) 1 4) = Ret (repeat None (Z.to_nat n)) /\ doda_printed (@doda_new_size A n 1 4) = Ret []) /\
  (let ops := [SPush 1; SPop] in cdoda_printed (fst (run_hist cs_step [SPush (Some 1); SPop] (cs_new []))) = Ret [None] /\ fst (run_hist (stack_spec (OErr IndexError)) ops []) = []).
Proof.
  split; [|split; vm_compute; reflexivity]. intros A n Hn. split; [|reflexivity]. rewrite new_eq_size by exact Hn.
  assert (I : doda_inv (doda_new_size n 1 4 : doda A)) by (apply (doda_start_inv 1 4); split; [lia|]; split; [lia|]; left; exists n; auto). rewrite (doda_shown _ I). reflexivity.
Qed.
Print Assumptions C137_cpp_empty_print_refuted.
