(** Property C134: printing an ArraySegmentTree. *)
From Verif Require Import Base RangeModel RangeSpec SparseProofs SegTreeProofs RangeProps PrintModel3 PrintSpec2 PrintProofs6.

(** After build and any history of updates, printing shows the whole tree: every node with its range and the combination of the current values in it, each followed by
    its two halves. Before build there is a single empty entry. *)
Theorem C134_segment_tree_print : forall (V : Type) (func : combiner V) (op : V -> V -> V) (a : list V) (us : list (Z * V)),
  combines func op -> a <> [] -> Forall (fun u => -1 <= fst u < len a) us ->
  st_printed (st_new a) = Ret [None] /\
  exists t L, (t <- st_build func (st_new a) ;; st_run func t us) = Ret t /\ st_printed t = Ret L /\ seg_shown op (assigns a us) 0 (len a - 1) L.
Proof.
  intros V func op a us CB Ha F. split; [reflexivity|]. assert (d : V) by (destruct a; [contradiction|assumption]).
  destruct (st_build_ok func op CB d a Ha) as (t0 & E0 & O0). destruct (st_run_ok func op CB d us a t0 O0 F) as (t & E & O).
  destruct (print_ok op _ t O) as (L & EL & S). rewrite len_assigns in S. exists t, L. rewrite E0. cbn [bind]. auto.
Qed.
Print Assumptions C134_segment_tree_print.
(** and what is shown is determined: two trees over the same values print the same *)
Theorem C134_print_determined : forall (V : Type) (op : V -> V -> V) (g : list V) s e L, seg_shown op g s e L -> forall L', seg_shown op g s e L' -> L = L'.
Proof.
  intros V op g s e L H. induction H as [s|s e L R Hl H1 IH1 H2 IH2]; intros L' H'; inversion H'; subst; try lia; [reflexivity|]. f_equal. f_equal; auto.
Qed.
Print Assumptions C134_print_determined.
Example C134_case : (t <- st_build py_minimum (st_new [4; 6; 1]) ;; t <- st_run py_minimum t [(2, 9); (0, 5)] ;; st_printed t)
  = Ret [Some (0, 2, Some 5); Some (0, 1, Some 5); Some (0, 0, Some 5); None; None; Some (1, 1, Some 6); None; None; Some (2, 2, Some 9); None; None].
Proof. vm_compute. reflexivity. Qed.
