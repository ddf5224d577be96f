(** Printing segment trees. *)
From Verif Require Import Base RangeModel RangeSpec SparseProofs SegTreeProofs PrintModel3 PrintSpec2.

Section Seg.
  Context {V : Type} (op : V -> V -> V).
  Definition pbody (h : list (scell V)) := (fun '(stack, out) =>
    match stack with
    | [] => Ret (Break out)
    | None :: stack => Ret (Next (stack, out ++ [None]))
    | Some a :: stack => n <- sget h a ;; Ret (Next (s_left n :: s_right n :: stack, out ++ [Some (s_start n, s_end n, s_data n)]))
    end : res (ctl (list (option nat) * list (option (Z * Z * option V))) (list (option (Z * Z * option V))))).
  Lemma print_tree g h T : forall s e stack out, rep op g h T s e -> exists L, seg_shown op g s e L /\ runs (pbody h) (length L) (Some (addr T) :: stack, out) (stack, out ++ L) /\ length L = (2 * length (addrs T) + 1)%nat.
  Proof.
    induction T as [a|a l IHl r IHr]; intros s e stack out P; cbn [rep addrs addr] in *.
    - destruct P as (<- & E). eexists. split; [constructor|]. split; [|reflexivity]. intros f. cbn [length Nat.add]. erewrite while_next by (cbn [pbody]; unfold sget; rewrite E; reflexivity). cbn [s_left s_right s_start s_end s_data cellw]. erewrite while_next by reflexivity. erewrite while_next by reflexivity. rewrite <- !app_assoc. reflexivity.
    - destruct P as (L & E & P1 & P2). destruct (IHl _ _ (Some (addr r) :: stack) (out ++ [Some (s, e, rf op g s e)]) P1) as (L1 & S1 & R1 & Q1). destruct (IHr _ _ stack ((out ++ [Some (s, e, rf op g s e)]) ++ L1) P2) as (L2 & S2 & R2 & Q2).
      exists (Some (s, e, rf op g s e) :: L1 ++ L2). split; [apply seg_node; assumption|]. split; [|cbn [length]; rewrite !app_length; lia]. intros f. cbn [length Nat.add]. erewrite while_next by (cbn [pbody]; unfold sget; rewrite E; reflexivity). cbn [s_left s_right s_start s_end s_data cellw]. rewrite app_length, <- Nat.add_assoc, R1, R2. do 2 f_equal. rewrite <- !app_assoc. reflexivity.
  Qed.
  Lemma addrs_bound g h T : forall s e, rep op g h T s e -> forall a, In a (addrs T) -> (a < length h)%nat.
  Proof.
    induction T as [b|b l IHl r IHr]; intros s e P a; cbn [rep addrs] in *.
    - destruct P as (_ & E). intros [<-|[]]. apply nth_error_Some. congruence.
    - destruct P as (_ & E & P1 & P2). intros [<-|I]; [apply nth_error_Some; congruence|]. apply in_app_iff in I as [I|I]; [eapply IHl|eapply IHr]; eauto.
  Qed.
  Lemma print_ok g t : st_ok op g t -> exists L, st_printed t = Ret L /\ seg_shown op g 0 (len g - 1) L.
  Proof.
    intros (_ & _ & T & ER & ND & P). destruct (print_tree g (st_heap t) T 0 (len g - 1) [] [] P) as (L & SS & R & Q). exists L. split; [|exact SS]. unfold st_printed. rewrite ER.
    assert (B : (length (addrs T) <= length (st_heap t))%nat). { rewrite <- (seq_length (length (st_heap t)) 0). apply NoDup_incl_length; [exact ND|]. intros a Ha. apply in_seq. apply (addrs_bound g _ T _ _ P) in Ha. lia. }
    change (while_loop (4 * length (st_heap t) + 3) (pbody (st_heap t)) ([Some (addr T)], []) = Ret L). replace (4 * length (st_heap t) + 3)%nat with (length L + S (4 * length (st_heap t) + 2 - length L))%nat by lia. rewrite R. reflexivity.
  Qed.
End Seg.
